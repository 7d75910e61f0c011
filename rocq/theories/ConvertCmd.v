(** Model of the convert command (commands/convert.py): one file or all the recipes below a directory.  Messages, statistics
    other than those of [bulk_report] and the options that only change what is printed are not modelled. *)
From Verif Require Export Commands Convert.

(** A path that exists: a directory with the files below it, each given by its components; a file; or something else.
    Simplification: paths are texts without "." and without repeated slashes. *)
Inductive target := IsDirectory (below : list (list str)) | IsFile | IsOther.
Definition SLASH : str := $"/".
Definition path_below (path : str) (rel : list str) : str := join SLASH (path :: rel).
(** [file.parent / output] (line 184): an absolute path wins *)
Definition beside (path : str) (rel : list str) (output : str) : str :=
  if starts_with SLASH output then output else path_below path (removelast rel) ++ SLASH ++ output.
(** parser/types.py 26 [V0_FORMAT_RECIPE_FILE_NAME], convert.py 190-211 [_get_files_list]: the components of the files below
    the path, none when the path is the file.  Directories of that name, which [rglob] also finds, are left out. *)
Definition is_recipe_file (rel : list str) : bool := match rev rel with x :: _ => str_eqb x $"meta.yaml" | [] => false end.
Definition files_list (kind : target) : step (list (list str)) :=
  match kind with
  | IsDirectory files => match filter is_recipe_file files with [] => Stop (Exit CLICK_USAGE) | l => Go l end
  | IsFile => Go [[]]
  | IsOther => Stop (Exit CLICK_USAGE)
  end.
Inductive cmd_effect := Written (path text : str) | Printed (text : str).
Definition located (out : str) (e : effect) : cmd_effect := match e with Write t => Written out t | Print t => Printed t end.
(** convert.py 82-171: one file.  [read] gives the contents of files, [fails] what happens when one is written. *)
Definition convert_one (E : env) (pre : str -> res str) (to_v1 : recipe -> res (str * msg_table)) (read : str -> read_result)
    (fails : str -> option exn) (file : str) (print_output : bool) (output : option str) : (exn + conversion) * list cmd_effect :=
  let '(x, effs) := convert_file E pre to_v1 file (read file) print_output (option_map fails output) in
  (x, map (located (match output with Some o => o | None => [] end)) effs).
(** convert.py 174-187 [process_recipe] *)
Definition process_recipe (E : env) (pre : str -> res str) (to_v1 : recipe -> res (str * msg_table)) (read : str -> read_result)
    (fails : str -> option exn) (path : str) (output : option str) (rel : list str) : str * ((exn + conversion) * list cmd_effect) :=
  (join SLASH rel, convert_one E pre to_v1 read fails (path_below path rel) false (option_map (beside path rel) output)).
Fixpoint all_results (l : list (str * (exn + conversion))) : exn + list (str * conversion) :=
  match l with
  | [] => inr []
  | (_, inl e) :: _ => inl e
  | (n, inr c) :: l' => match all_results l' with inl e => inl e | inr l'' => inr ((n, c) :: l'') end
  end.
(** convert.py 263-371 [convert].  The processes of the pool are run one after the other; their results are in the order of
    the files.  Simplification: after an exception in one of them the others are still run. *)
Definition convert_command (E : env) (pre : str -> res str) (to_v1 : recipe -> res (str * msg_table)) (path : str) (kind : target)
    (read : str -> read_result) (fails : str -> option exn) (output : option str) (min_rate : nat) : finish * list cmd_effect * option report :=
  match files_list kind with
  | Stop f => (f, [], None)
  | Go [rel] =>
      let '(x, effs) := convert_one E pre to_v1 read fails (path_below path rel) true output in
      (match x with inl e => Raise e | inr c => Exit (c_code c) end, effs, None)
  | Go rels =>
      let l := map (process_recipe E pre to_v1 read fails path output) rels in
      let effs := concat (map (fun x => snd (snd x)) l) in
      match all_results (map (fun x => (fst x, fst (snd x))) l) with
      | inl e => (Raise e, effs, None)
      | inr results =>
          let t := bulk_report (length rels) results in
          (Exit (bulk_exit (t_success t) (length rels) min_rate), effs, Some t)
      end
  end.
