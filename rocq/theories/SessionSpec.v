(** Vocabulary of C144: a session of calls on a file in the canonical layout.  Nothing here is used by the model. *)
From Verif Require Export CommentFileSpec DepFileSpec.

(** The calls that change a recipe. *)
Inductive action :=
| AEdit (e : edit)
| AAddDependency (dep : dependency) (mode : dep_mode) (smode : sel_mode)
| ARemoveDependency (dep : dependency).
Definition made (E : env) (MS : match_spec) (a : action) (r : recipe) : recipe :=
  match a with
  | AEdit e => after E e r
  | AAddDependency dep mode smode => snd (add_dependency E MS dep mode smode r)
  | ARemoveDependency dep => snd (remove_dependency E dep r)
  end.
(** The call reports success. *)
Definition accepted (E : env) (MS : match_spec) (a : action) (r : recipe) : Prop :=
  match a with
  | AEdit (EPatch p) => fst (patch E p r) = Ok true
  | AEdit e => succeeded E e r
  | AAddDependency dep mode smode => fst (add_dependency E MS dep mode smode r) = Ok true
  | ARemoveDependency dep => fst (remove_dependency E dep r) = Ok true
  end.
Fixpoint session (E : env) (MS : match_spec) (l : list action) (r : recipe) : recipe :=
  match l with [] => r | a :: l' => session E MS l' (made E MS a r) end.
Fixpoint all_accepted (E : env) (MS : match_spec) (l : list action) (r : recipe) : Prop :=
  match l with [] => True | a :: l' => accepted E MS a r /\ all_accepted E MS l' (made E MS a r) end.

(** A variable gets a value in its place, or is the last of the list; a variable is taken out. *)
Definition unset (k : str) (vars : list (str * json)) : Prop := forall v, ~ In (k, v) vars.
Definition variable_put (k : str) (v : json) (vars vars' : list (str * json)) : Prop :=
  (exists A old B, unset k A /\ vars = A ++ (k, old) :: B /\ vars' = A ++ (k, v) :: B) \/ (unset k vars /\ vars' = vars ++ [(k, v)]).
Definition variable_out (k : str) (vars vars' : list (str * json)) : Prop :=
  exists A old B, unset k A /\ vars = A ++ (k, old) :: B /\ vars' = A ++ B.
(** What a call makes of the entries and variables of a file. *)
Inductive acted (E : env) (MS : match_spec) (sv : schema) : action -> list item -> vtbl -> list item -> vtbl -> Prop :=
| act_patch p q xs xs' vars : asks p q -> file_edited E q xs xs' -> acted E MS sv (AEdit (EPatch p)) xs vars xs' vars
| act_line e xs xs' vars : is_line_edit e = true -> line_edited e xs xs' -> acted E MS sv (AEdit e) xs vars xs' vars
| act_set k v xs vars vars' : variable_put k v vars vars' -> acted E MS sv (AEdit (ESetVar k v)) xs vars xs vars'
| act_delete k xs vars vars' : variable_out k vars vars' -> acted E MS sv (AEdit (EDelVar k)) xs vars xs vars'
| act_dependency dep mode smode xs xs' vars : dependency_added E MS dep mode smode sv vars xs xs' ->
    acted E MS sv (AAddDependency dep mode smode) xs vars xs' vars
| act_no_dependency dep xs xs' vars : file_edited E (RRemove (d_path dep)) xs xs' -> acted E MS sv (ARemoveDependency dep) xs vars xs' vars.
Inductive acted_in_turn (E : env) (MS : match_spec) (sv : schema) : list action -> list item -> vtbl -> list item -> vtbl -> Prop :=
| acts_none xs vars : acted_in_turn E MS sv [] xs vars xs vars
| acts_next a l xs vars xs1 vars1 xs' vars' : acted E MS sv a xs vars xs1 vars1 -> acted_in_turn E MS sv l xs1 vars1 xs' vars' ->
    acted_in_turn E MS sv (a :: l) xs vars xs' vars'.
