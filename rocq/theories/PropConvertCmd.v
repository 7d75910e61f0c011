(** C115 and C116: the convert command from the file that is read to the file that is written. *)
From Verif Require Import Samples PropConvert ConvertCmd ConvertCmdProofs ConvertCmdSpec.

(** C115: a conversion of one file that ends with success (or with warnings) read the file, ran every step of the conversion
    without errors on the pre-processed text, and wrote or printed exactly the rendered result. *)
Theorem C115_converted_file : forall T variants path kind read fails output min_rate code effs rep, reads_proper (t_env T) -> kind = IsFile ->
  convert_command (t_env T) (prepared variants) (convert_to_v1 T) path kind read fails output min_rate = (Exit code, effs, rep) ->
  code = SUCCESS \/ code = RENDER_WARNINGS -> exists text out warnings,
  read path = ReadOk text /\ converts_to T (pre_process_recipe_text variants text) out warnings /\ (code = SUCCESS <-> warnings = [])
  /\ effs = [match output with Some o => Written o out | None => Printed out end] /\ rep = None.
Proof. exact c115. Qed.
Print Assumptions C115_converted_file.
(** Exactly the recipes that can be read and are not in the old format are refused as illegal. *)
Theorem C115_only_old_recipes : forall E pre to_v1 file path pr output c effs, convert_file E pre to_v1 path file pr output = (inr c, effs) ->
  (c_code c = ILLEGAL_OPERATION <-> exists text content r copy, file = ReadOk text /\ pre text = Ok content /\ new_recipe E content = Ok r
     /\ new_recipe E (render E r) = Ok copy /\ r_schema r <> SV0).
Proof. exact c115_illegal. Qed.
Print Assumptions C115_only_old_recipes.

Definition disk (l : list (string * list string)) (p : str) : read_result :=
  match find (fun x => str_eqb (lit (fst x)) p) l with Some (_, t) => ReadOk (nl t) | None => ReadIO end.
Definition fine (_ : str) : option exn := None.
Definition shown (e : cmd_effect) : string * list string := match e with Written p t => (pr p, map pr (splitlines t)) | Printed t => ("-"%string, map pr (splitlines t)) end.
Definition command (path : string) (kind : target) (files : list (string * list string)) (output : option string) (rate : nat) : finish * list (string * list string) :=
  let '(f, effs, _) := convert_command mini_env (prepared []) (convert_to_v1 plain_tools) (lit path) kind (disk files) fine (option_map lit output) rate in
  (f, map shown effs).
Definition small : list string := ["{% set name = ""foo"" %}"; "package:"; "  name: {{ name }}"; "build:"; "  noarch: python"]%string.
Definition small_new : list string := ["schema_version: 1"; ""; "context:"; "  name: foo"; ""; "package:"; "  name: ${{ name }}"; ""; "build:"; "  noarch: python"]%string.
Definition new_already : list string := ["schema_version: 1"; "package:"; "  name: foo"]%string.
Example C115_example :
  command "r/meta.yaml" IsFile [("r/meta.yaml", small)]%string (Some "out.yaml"%string) 0 = (Exit SUCCESS, [("out.yaml", small_new)])%string
  /\ command "r/meta.yaml" IsFile [("r/meta.yaml", small)]%string None 0 = (Exit SUCCESS, [("-", small_new)])%string
  /\ command "r/meta.yaml" IsFile [("r/meta.yaml", new_already)]%string None 0 = (Exit ILLEGAL_OPERATION, [])
  /\ fst (command "r/meta.yaml" IsFile [] None 0) = Exit READ_EXCEPTION
  /\ fst (command "r" IsOther [] None 0) = Exit CLICK_USAGE.
Proof. vm_compute. auto 10. Qed.

(** C116: all the recipes below a directory: each of them is converted as it would be alone, the outputs are written beside the
    recipes to distinct files that are none of the recipes, and the exit code follows from the number of successes. *)
Theorem C116_directory : forall E pre to_v1 path files read fails o min_rate, sound_tree files -> (forall p, fails p = None) -> file_name o ->
  forall d1 d2, d1 <> d2 -> recipe_below files d1 -> recipe_below files d2 ->
  exists dirs, NoDup dirs /\ (forall d, In d dirs <-> recipe_below files d) /\
  let alone d := convert_command E pre to_v1 (path_in path d $"meta.yaml") IsFile read fails (Some (path_in path d o)) min_rate in
  let good := length (filter (fun d => ended_well (fst (fst (alone d)))) dirs) in
  exists t effs, convert_command E pre to_v1 path (IsDirectory files) read fails (Some o) min_rate
    = (Exit (bulk_exit good (length dirs) min_rate), effs, Some t)
  /\ effs = concat (map (fun d => snd (fst (alone d))) dirs)
  /\ NoDup (written_paths effs)
  /\ (forall p, In p (written_paths effs) -> exists d, recipe_below files d /\ p = path_in path d o)
  /\ (o <> $"meta.yaml" -> forall d, recipe_below files d -> ~ In (path_in path d $"meta.yaml") (written_paths effs)).
Proof. exact c116. Qed.
Print Assumptions C116_directory.
(** A directory with one recipe is treated like that file. *)
Theorem C116_directory_with_one_recipe : forall E pre to_v1 path files read fails output min_rate d, NoDup files -> recipe_below files d -> (forall d', recipe_below files d' -> d' = d) ->
  convert_command E pre to_v1 path (IsDirectory files) read fails output min_rate = convert_command E pre to_v1 (path_in path d $"meta.yaml") IsFile read fails output min_rate.
Proof. exact c116_one. Qed.
Print Assumptions C116_directory_with_one_recipe.
Theorem C116_directory_without_recipes : forall E pre to_v1 path files read fails output min_rate, (forall d, ~ recipe_below files d) ->
  convert_command E pre to_v1 path (IsDirectory files) read fails output min_rate = (Exit CLICK_USAGE, [], None).
Proof. exact c116_none. Qed.
Print Assumptions C116_directory_without_recipes.

Definition tree : target := IsDirectory (map (map lit) [["a"; "meta.yaml"]; ["a"; "README"]; ["b"; "c"; "meta.yaml"]; ["d"; "meta.yaml"]]%string).
Definition contents : list (string * list string) := [("r/a/meta.yaml", small); ("r/b/c/meta.yaml", small); ("r/d/meta.yaml", new_already)]%string.
Example C116_example :
  command "r" tree contents (Some "recipe.yaml"%string) 60 = (Exit SUCCESS, [("r/a/recipe.yaml", small_new); ("r/b/c/recipe.yaml", small_new)])%string
  /\ fst (command "r" tree contents (Some "recipe.yaml"%string) 68) = Exit MISSED_SUCCESS_THRESHOLD.
Proof. vm_compute. auto. Qed.
(** An absolute output path is the only one that is written, whatever is converted. *)
Theorem C116_absolute_output : forall E pre to_v1 path kind read fails o min_rate f effs rep,
  convert_command E pre to_v1 path kind read fails (Some ($"/" ++ o)) min_rate = (f, effs, rep) -> forall p, In p (written_paths effs) -> p = $"/" ++ o.
Proof. exact c116_absolute. Qed.
Print Assumptions C116_absolute_output.
(** It is used for every recipe: only the last result is kept. *)
Theorem C116_distinct_outputs_refuted : exists files output effs f,
  command "r" tree files (Some output) 60 = (f, effs) /\ f = Exit SUCCESS /\ map fst effs = [output; output].
Proof. exists contents, "/tmp/recipe.yaml"%string. eexists _, _. vm_compute. auto. Qed.
Print Assumptions C116_distinct_outputs_refuted.
(** With one recipe below the directory the output is not beside it. *)
Theorem C116_one_recipe_beside_refuted : exists files effs f,
  command "r" (IsDirectory [map lit ["a"; "meta.yaml"]%string]) files (Some "recipe.yaml"%string) 60 = (f, effs) /\ f = Exit SUCCESS /\ map fst effs = ["recipe.yaml"]%string.
Proof. exists contents. eexists _, _. vm_compute. auto. Qed.
Print Assumptions C116_one_recipe_beside_refuted.
(** An output called meta.yaml overwrites the recipes. *)
Theorem C116_recipes_kept_refuted : exists files effs f,
  command "r" tree files (Some "meta.yaml"%string) 60 = (f, effs) /\ f = Exit SUCCESS /\ map fst effs = ["r/a/meta.yaml"; "r/b/c/meta.yaml"]%string.
Proof. exists contents. eexists _, _. vm_compute. auto. Qed.
Print Assumptions C116_recipes_kept_refuted.
