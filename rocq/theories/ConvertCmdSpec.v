(** Vocabulary of C115 and C116: the convert command. *)
From Verif Require Export ConvertCmd CommandsSpec SectionSpec ContextSpec.

(** The pre-processing always gives a text. *)
Definition prepared (variants : list str) (s : str) : res str := Ok (pre_process_recipe_text variants s).
(** The conversion of a recipe text, step by step, without errors: what C100 says, for the recipe read from the text. *)
Definition converts_to (T : tools) (text : str) (out : str) (warnings : list str) : Prop :=
  exists r copy s1 s2 s3 s' v n root,
    new_recipe (t_env T) text = Ok r /\ r_schema r = SV0
    /\ new_recipe (t_env T) (render (t_env T) r) = Ok copy
    /\ without_errors (upgrade_selectors_to_conditionals T) {| v1 := copy; msgs := new_table |} tt s1
    /\ context_upgraded (t_env T) (t_order T) (r_vars copy) (view s1) (view s2)
    /\ get_value (t_env T) (r_root (v1 s2)) $"/outputs" (Some (JList [])) None = Ok v /\ json_len v = Ok n
    /\ sections_upgraded (t_env T) (find_closest_license_match (t_close T) (t_licenses T)) (outputs_of n) (view s2) (view s3)
    /\ sort_subtree_keys (r_root (v1 s3)) $"/" TOP_LEVEL_SORT [] = Ok root /\ r_root (v1 s') = root
    /\ out = render (t_env T) (v1 s') /\ warnings = get_messages WARNING (msgs s').
(** Names of files and directories. *)
Definition file_name (s : str) : Prop := s <> [] /\ ~ In "/"%char s.
Definition recipe_below (files : list (list str)) (dir : list str) : Prop := In (dir ++ [$"meta.yaml"]) files.
Definition sound_tree (files : list (list str)) : Prop := NoDup files /\ Forall (fun rel => rel <> [] /\ Forall file_name rel) files.
Definition written_paths (l : list cmd_effect) : list str := flat_map (fun e => match e with Written p _ => [p] | Printed _ => [] end) l.
Definition path_in (path : str) (dir : list str) (name : str) : str := path ++ concat (map (fun c => $"/" ++ c) (dir ++ [name])).
Definition ended_well (f : finish) : bool := match f with Exit SUCCESS | Exit RENDER_WARNINGS => true | _ => false end.
