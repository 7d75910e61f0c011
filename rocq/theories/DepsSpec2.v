(** Properties C50 and C90: the dependencies and their paths, in order. *)
From Verif Require Export DepsSpec.

(** The members of a value, in order. *)
Inductive members_of : json -> list json -> Prop :=
| mo_list l : members_of (JList l) l
| mo_text s : members_of (JStr s) (map (fun c => JStr [c]) s)
| mo_map d : members_of (JDict d) (map (fun kv => JP (fst kv)) d).
(** The dependency that the text [s] stands for, as member [i] of a section. *)
Definition dependency_for (MS : match_spec) (r : recipe) (package : prim) (path sec : str) (section : dep_section) (i : nat) (s : str) (d : dependency) : Prop :=
  d_by d = package /\ d_path d = below path ($"/requirements/" ++ sec ++ $"/" ++ str_of_nat i) /\ d_type d = section
  /\ parsed_as MS s (d_data d)
  /\ d_sel d = match lookup (r_root r) (d_path d) with
               | Some n => option_map (fun t => selector_parser t (r_schema r)) (selector_of (n_comment n))
               | None => None
               end.
(** One dependency for every member that is not empty; the first member has the number [i]. *)
Inductive members_listed (MS : match_spec) (r : recipe) (package : prim) (path sec : str) (section : dep_section) : nat -> list json -> list dependency -> Prop :=
| ml_end i : members_listed MS r package path sec section i [] []
| ml_empty i x xs ds : empty_entry x -> members_listed MS r package path sec section (S i) xs ds -> members_listed MS r package path sec section i (x :: xs) ds
| ml_entry i x xs s d ds : entry_text x s -> dependency_for MS r package path sec section i s d ->
    members_listed MS r package path sec section (S i) xs ds -> members_listed MS r package path sec section i (x :: xs) (d :: ds).
(** The sections in the order of the recipe; other entries are left out. *)
Inductive sections_in_order (MS : match_spec) (r : recipe) (package : prim) (path : str) : list (prim * json) -> list dependency -> Prop :=
| sl_end : sections_in_order MS r package path [] []
| sl_other sec v reqs ds : (forall x, ~ spells sec x) -> sections_in_order MS r package path reqs ds -> sections_in_order MS r package path ((PStr sec, v) :: reqs) ds
| sl_section sec section v l reqs ds ds' : spells sec section -> members_of v l -> members_listed MS r package path sec section 0 l ds ->
    sections_in_order MS r package path reqs ds' -> sections_in_order MS r package path ((PStr sec, v) :: reqs) (ds ++ ds').
Definition dependencies_of (E : env) (MS : match_spec) (r : recipe) (package : prim) (path : str) (ds : list dependency) : Prop :=
  exists reqs, get_value E (r_root r) (below path $"/requirements") (Some (JDict [])) (Some (r_schema r, r_vars r)) = Ok (JDict reqs)
  /\ sections_in_order MS r package path reqs ds.
(** The number of members of the value at a path. *)
Definition size_at (E : env) (r : recipe) (path : str) (n : nat) : Prop :=
  lookup (r_root r) path = None /\ n = 0
  \/ exists v l, get_value E (r_root r) path None None = Ok v /\ members_of v l /\ length l = n.
(** The places of requirements sections in a recipe with [n] outputs. *)
Definition section_places (sv : schema) (n : nat) : list str :=
  flat_map (fun scope => map (fun sec => scope ++ $"/requirements/" ++ sec) (requirement_sections sv))
           ([] :: map (fun i => $"/outputs/" ++ str_of_nat i) (seq 0 n)).
Definition numbered (place : str) (k : nat) : list str := map (fun i => place ++ $"/" ++ str_of_nat i) (seq 0 k).
