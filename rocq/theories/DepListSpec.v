(** Vocabulary of C147: the dependencies that the lines of a file stand for.  Nothing here is used by the model. *)
From Verif Require Export EntrySpec DepsSpec2.

(** The lines of a section, with what is read there (variables filled in): one dependency for every line with a text, with the
    number of the line (comment lines do not count), the selector in its comment and the text without blanks around it.  [scope] is
    the path of the package, empty for the file itself. *)
Inductive section_lists (MS : match_spec) (sv : schema) (scope : str) (package : prim) (sec : str) (section : dep_section) : nat -> list item -> list json -> list dependency -> Prop :=
| dl_end i : section_lists MS sv scope package sec section i [] [] []
| dl_comment i c es ts ds : section_lists MS sv scope package sec section i es ts ds -> section_lists MS sv scope package sec section i (IComment c :: es) ts ds
| dl_empty i v c x es ts ds : empty_entry x -> section_lists MS sv scope package sec section (S i) es ts ds ->
    section_lists MS sv scope package sec section i (IElem v c :: es) (x :: ts) ds
| dl_line i v c x s d es ts ds : entry_text x s ->
    d_by d = package -> d_path d = scope ++ $"/requirements/" ++ sec ++ $"/" ++ str_of_nat i -> d_type d = section -> parsed_as MS s (d_data d) ->
    d_sel d = option_map (fun t => selector_parser t sv) (selector_of c) ->
    section_lists MS sv scope package sec section (S i) es ts ds -> section_lists MS sv scope package sec section i (IElem v c :: es) (x :: ts) (d :: ds).
(** The entries of the section requirements, with what is read there; entries under other names are left out. *)
Inductive requirement_lines (MS : match_spec) (sv : schema) (scope : str) (package : prim) : list item -> list (prim * json) -> list dependency -> Prop :=
| rl_end : requirement_lines MS sv scope package [] [] []
| rl_comment c es reqs ds : requirement_lines MS sv scope package es reqs ds -> requirement_lines MS sv scope package (IComment c :: es) reqs ds
| rl_other x k v es reqs ds : entry_key x = Some (PStr k) -> (forall section, ~ spells k section) ->
    requirement_lines MS sv scope package es reqs ds -> requirement_lines MS sv scope package (x :: es) ((PStr k, v) :: reqs) ds
| rl_section sec section c ls ts ds es reqs ds' : spells sec section -> section_lists MS sv scope package sec section 0 ls ts ds ->
    requirement_lines MS sv scope package es reqs ds' ->
    requirement_lines MS sv scope package (ISection (PStr sec) c ls :: es) ((PStr sec, JList ts) :: reqs) (ds ++ ds').
(** A file of one package: the name of the package and the dependencies in its lines. *)
Definition file_dependencies (E : env) (MS : match_spec) (sv : schema) (xs : list item) (vars : vtbl) (package : prim) (ds : list dependency) : Prop :=
  no_entry $"outputs" xs
  /\ (exists c ps v c', In (ISection (PStr $"package") c ps) xs /\ In (IScalar (PStr $"name") v c') ps
       /\ value_filled E sv vars (IScalar (PStr $"name") v c') (JP package))
  /\ (exists c cs reqs, In (ISection (PStr $"requirements") c cs) xs /\ value_filled E sv vars (ISection (PStr $"requirements") c cs) (JDict reqs)
       /\ requirement_lines MS sv [] package cs reqs ds).

(** * Files with outputs *)
Definition named (E : env) (sv : schema) (xs : list item) (vars : vtbl) (p : str) (package : prim) : Prop :=
  exists v c, entry_at [] 0 xs p (IScalar (PStr $"name") v c) /\ value_filled E sv vars (IScalar (PStr $"name") v c) (JP package).
(** The entries of a mapping in a list. *)
Definition parts (x : item) : list item :=
  match x with IMapScalar k v c rest => IScalar k v c :: rest | IMapSection k c cs rest => ISection k c cs :: rest | _ => [] end.
(** The dependencies that the package at a path lists itself: those of its section requirements, if it has one. *)
Inductive scope_dependencies (E : env) (MS : match_spec) (sv : schema) (xs : list item) (vars : vtbl) : str -> prim -> list dependency -> Prop :=
| requirements_there scope package c cs reqs ds : entry_at [] 0 xs (scope ++ $"/requirements") (ISection (PStr $"requirements") c cs) ->
    value_filled E sv vars (ISection (PStr $"requirements") c cs) (JDict reqs) -> requirement_lines MS sv scope package cs reqs ds ->
    scope_dependencies E MS sv xs vars scope package ds
| no_requirements package : no_entry $"requirements" xs -> scope_dependencies E MS sv xs vars [] package []
| no_requirements_in scope x package : entry_at [] 0 xs scope x -> parts x <> [] -> no_entry $"requirements" (parts x) ->
    scope_dependencies E MS sv xs vars scope package [].
Definition output_scope (i : nat) : str := $"/outputs/" ++ str_of_nat i.
Definition root_name_at (sv : schema) : str := match sv with SV0 => $"/package/name" | SV1 => $"/recipe/name" end.
Definition output_name_at (sv : schema) (i : nat) : str := output_scope i ++ match sv with SV0 => $"/name" | SV1 => $"/package/name" end.
(** A file with outputs: the package of the file with its own dependencies, and every output with its own dependencies and then those
    of the file. *)
Definition packages_of_file (E : env) (MS : match_spec) (sv : schema) (xs : list item) (vars : vtbl) (m : dep_map) : Prop :=
  exists c os l root rd outs,
    entry_at [] 0 xs $"/outputs" (ISection (PStr $"outputs") c os) /\ value_read E (ISection (PStr $"outputs") c os) (JList l) /\ length l = length outs
    /\ named E sv xs vars (root_name_at sv) root /\ scope_dependencies E MS sv xs vars [] root rd
    /\ (forall i name own, nth_error outs i = Some (name, own) ->
          named E sv xs vars (output_name_at sv i) name /\ scope_dependencies E MS sv xs vars (output_scope i) name own)
    /\ ForallOrdPairs (fun a b => prim_eqb a b = false) (root :: map fst outs)
    /\ m = (root, rd) :: map (fun o => (fst o, snd o ++ map (owned_by (fst o)) rd)) outs.
