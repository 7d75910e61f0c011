(** Specification vocabulary for recipe graphs and build configuration files.  Independent of the model's helper functions. *)
From Verif Require Export Graph Cbc DepsSpec.

(** Names are compared like Python compares them. *)
Definition same_name (a b : prim) : Prop := prim_eqb a b = true.
(** All packages of the recipes whose dependencies can be read, in order: recipe, name, dependencies. *)
Definition definition := (str * prim * list dependency)%type.
Definition def_recipe (d : definition) : str := fst (fst d).
Definition def_name (d : definition) : prim := snd (fst d).
Definition def_deps (d : definition) : list dependency := snd d.
Definition definitions (cache : sdict recipe_deps) : list definition :=
  flat_map (fun kv => match rd_deps (snd kv) with Ok m => map (fun p => (fst kv, fst p, snd p)) m | Err _ => [] end) cache.
(** The first definition of a name. *)
Definition first_definition (cache : sdict recipe_deps) (d : definition) : Prop :=
  exists before after, definitions cache = before ++ d :: after /\ forall x, In x before -> ~ same_name (def_name x) (def_name d).
Definition defined_twice (cache : sdict recipe_deps) (name : prim) : Prop :=
  exists a d b d' c, definitions cache = a ++ d :: b ++ d' :: c /\ same_name (def_name d) name /\ same_name (def_name d') name.
Definition distinct_names (l : list prim) : Prop := ForallOrdPairs (fun a b => ~ same_name a b) l.
(** Sections of the two graphs; a list has a dependency of that name in such a section. *)
Definition build_section (t : dep_section) : Prop := t = BUILD \/ t = HOST.
Definition test_section (t : dep_section) : Prop := t = RUN \/ t = TESTS.
Definition lists_dep (sec : dep_section -> Prop) (ds : list dependency) (name : str) : Prop :=
  exists d, In d ds /\ sec (d_type d) /\ data_name (d_data d) = name.
(** The recipes whose dependencies cannot be read. *)
Definition unreadable_deps (cache : sdict recipe_deps) (sha : str) : Prop :=
  exists x e, In (sha, x) cache /\ rd_deps x = Err e.
(** A file fails when it cannot be read or parsed. *)
Definition fails (E : env) (f : recipe_file) : Prop :=
  rf_content f = None \/ exists text e, rf_content f = Some text /\ new_recipe E text = Err e.
Definition parses (E : env) (f : recipe_file) (r : recipe) : Prop := exists text, rf_content f = Some text /\ new_recipe E text = Ok r.

(** * Build configurations *)
(** An entry fits a query. *)
Definition fits (q : selector_query) (e : cbc_entry) : Prop :=
  ce_selector e = None \/ exists s, ce_selector e = Some s /\ does_selector_apply s q = true.
Definition first_fitting (q : selector_query) (l : list cbc_entry) (v : json) : Prop :=
  exists before e after, l = before ++ e :: after /\ ce_value e = v /\ fits q e /\ forall x, In x before -> ~ fits q x.
(** The entries of a variable: its values with the selectors of their lines. *)
Definition line_selector (r : recipe) (k : prim) (i : nat) (o : option selector) : Prop :=
  let path := $"/" ++ prim_str k ++ $"/" ++ str_of_nat i in
  (exists s, get_selector_at_path path None r = Ok s /\ o = Some (selector_parser s SV0))
  \/ (get_selector_at_path path None r = Err EKey /\ o = None).
Inductive entries_from (r : recipe) (k : prim) : nat -> list json -> list cbc_entry -> Prop :=
| ef_nil i : entries_from r k i [] []
| ef_cons i v vs o es : line_selector r k i o -> entries_from r k (S i) vs es ->
    entries_from r k i (v :: vs) ({| ce_value := v; ce_selector := o |} :: es).
(** The variables of a file: its list values other than [zip_keys], unless they are empty. *)
Inductive variables_of (r : recipe) : list (prim * json) -> cbc_table -> Prop :=
| vo_nil : variables_of r [] []
| vo_var k v vs d es t : k <> PStr $"zip_keys" -> entries_from r k 0 (v :: vs) es -> variables_of r d t ->
    variables_of r ((k, JList (v :: vs)) :: d) ((k, es) :: t)
| vo_skip k j d t : k = PStr $"zip_keys" \/ j = JList [] \/ (forall l, j <> JList l) -> variables_of r d t ->
    variables_of r ((k, j) :: d) t.
