(* The commands vg dialplan-show and vg modules-show (contrib/commands/vg.py). *)
From Verif Require Import Base PyStr Defines FileRd Config VarFun AppM Dialplan FuncOdbc Check Report VgRead VgCheck.

Section Show.
Variable U : uni.
Variable FT : ftable.
Variable AT : atable.
Variable printable : N -> bool.     (* str.isprintable, beyond ASCII *)
Variable fuel : nat.
Variable fs : fsys.

(* handle_args of vg (vg.py:220-228), which runs dialplan-show.py:43-49 with the
   parser of vg.py:167-187; as Show.v otherwise *)
Definition vg_show_command (reverse : bool) (name : str) : res (str * N) :=
  let! d := snd (vg_parse_dialplan U FT AT fuel fs name) in
  Ok (dialplan_show (pyrepr printable) reverse d ++ [10], 0).

(* modules-show.py:69-91 with the parsers of vg.py:167-202; as modules_show of
   Check.v otherwise *)
Definition vg_modules_command (there : str -> bool) (arg : option str) (name : str) : res (str * N) :=
  let o := vg_load_odbc there fuel fs arg name in
  let! fns := snd o in
  let ft := register_all U fns FT in
  let m := vg_parse_dialplan U ft AT fuel fs name in
  let! _ := snd m in
  let log := fst o ++ fst m in
  let ka := log_apps log in
  let kf := log_funcs log in
  let! ma := used_modules a_module AT ka in
  let! mf := used_modules VarFun.f_module ft kf in
  let! ia := used_items a_name a_module AT ka in
  let! if_ := used_items VarFun.f_name VarFun.f_module ft kf in
  let ms := run_msgs None log in
  let ua := unknown_apps ms in
  let uf := unknown_funcs ms in
  Ok (flat_map (fun l => l ++ [10])
        (print_modules (L "Application") ia ma ++ print_modules (L "Function") if_ mf
         ++ load_statements (ma ++ mf)
         ++ print_unknown (L "applications") ua ++ print_unknown (L "functions") uf),
      match ua, uf with [], [] => 0 | _, _ => 1 end).
End Show.
