(** The parse-tree node (parser/_node.py). *)
From Verif Require Export Json.

(** parser/types.py 104-121 [MultilineVariant] *)
Inductive mlv :=
| MNone | MPipe | MPipePlus | MPipeMinus | MAng | MAngPlus | MAngMinus | MLAng | MLAngPlus | MLAngMinus.
Definition mlv_str (v : mlv) : str :=
  match v with
  | MNone => $"" | MPipe => $"|" | MPipePlus => $"|+" | MPipeMinus => $"|-"
  | MAng => $">" | MAngPlus => $">+" | MAngMinus => $">-"
  | MLAng => $"<" | MLAngPlus => $"<+" | MLAngMinus => $"<-"
  end.
Definition all_mlv : list mlv :=
  [MNone; MPipe; MPipePlus; MPipeMinus; MAng; MAngPlus; MAngMinus; MLAng; MLAngPlus; MLAngMinus].
(** [MultilineVariant(s)]; ValueError when unknown *)
Definition mlv_of_str (s : str) : option mlv := find (fun v => str_eqb (mlv_str v) s) all_mlv.
Definition mlv_eqb (a b : mlv) : bool := str_eqb (mlv_str a) (mlv_str b).
Definition is_multi (v : mlv) : bool := negb (mlv_eqb v MNone).

(** A node value: the sentinel, or a YAML value (for multiline nodes a list of lines). *)
Inductive nval :=
| VSent
| VJ (j : json).

(** parser/_node.py 32-56.  [Node(value, comment, children, list_member_flag, multiline_variant, key_flag)] *)
Inductive node :=
| Nd (value : nval) (comment : str) (children : list node) (lmf : bool) (ml : mlv) (keyf : bool).

Definition n_value (n : node) := let 'Nd v _ _ _ _ _ := n in v.
Definition n_comment (n : node) := let 'Nd _ c _ _ _ _ := n in c.
Definition n_children (n : node) := let 'Nd _ _ ch _ _ _ := n in ch.
Definition n_lmf (n : node) := let 'Nd _ _ _ l _ _ := n in l.
Definition n_ml (n : node) := let 'Nd _ _ _ _ m _ := n in m.
Definition n_keyf (n : node) := let 'Nd _ _ _ _ _ k := n in k.

(** attribute assignments *)
Definition set_value (v : nval) (n : node) := let 'Nd _ c ch l m k := n in Nd v c ch l m k.
Definition set_comment (c : str) (n : node) := let 'Nd v _ ch l m k := n in Nd v c ch l m k.
Definition set_children (ch : list node) (n : node) := let 'Nd v c _ l m k := n in Nd v c ch l m k.
Definition set_lmf (l : bool) (n : node) := let 'Nd v c ch _ m k := n in Nd v c ch l m k.

(** parser/_types.py 22 *)
Definition ROOT_VALUE : str := $"/".
Definition root_node (ch : list node) : node := Nd (VJ (JStr ROOT_VALUE)) [] ch false MNone false.

Definition nval_eqb (a b : nval) : bool :=
  match a, b with
  | VSent, VSent => true
  | VJ x, VJ y => json_eqb x y
  | _, _ => false
  end.

(** [Node.__eq__] (parser/_node.py 58-74): the key flag is not compared. *)
Fixpoint node_eqb (a b : node) {struct a} : bool :=
  match a, b with
  | Nd v c chs l m _, Nd v' c' chs' l' m' _ =>
      nval_eqb v v' && str_eqb c c' && Bool.eqb l l' && mlv_eqb m m' &&
      (fix go (xs ys : list node) {struct xs} : bool :=
         match xs, ys with
         | [], [] => true
         | x :: xs', y :: ys' => node_eqb x y && go xs' ys'
         | _, _ => false
         end) chs chs'
  end.

Definition is_nil {A} (l : list A) : bool := match l with [] => true | _ => false end.
Definition is_sent (v : nval) : bool := match v with VSent => true | _ => false end.

(** parser/_node.py 124-130 *)
Definition is_comment (n : node) : bool :=
  is_sent (n_value n) && negb (is_nil (n_comment n)) && is_nil (n_children n).
(** parser/_node.py 108-114 *)
Definition is_leaf (n : node) : bool := is_nil (n_children n) && negb (is_comment n).
(** parser/_node.py 116-122 *)
Definition is_root (n : node) : bool := nval_eqb (n_value n) (VJ (JStr ROOT_VALUE)).
(** parser/_node.py 132-147 *)
Definition is_empty_key (n : node) : bool := n_keyf n && is_leaf n.
(** parser/_node.py 149-158 *)
Definition is_single_key (n : node) : bool :=
  n_keyf n && match n_children n with [c] => is_leaf c | _ => false end.
(** parser/_node.py 160-167 *)
Definition is_collection (n : node) : bool :=
  is_sent (n_value n) && n_lmf n && negb (is_nil (n_children n)).

(** [str(node.value)] *)
Definition nval_str (E : env) (v : nval) : str :=
  match v with VSent => sent_str E | VJ j => json_str j end.
(** [node.value == s] for a string [s] *)
Definition val_is (v : nval) (s : str) : bool :=
  match v with VJ (JStr t) => str_eqb t s | _ => false end.
