(** Specification vocabulary for addressing: paths as lists of components, document order, comment erasure.
    Nothing here is used by the model. *)
From Verif Require Export Access.

(** A path component: non-empty and without a slash. *)
Definition component (c : str) : Prop := c <> [] /\ ~ In cSL c.
(** The absolute path with the given components, root first: "/a/b/c". *)
Fixpoint path_text (cs : list str) : str :=
  match cs with
  | [] => []
  | c :: cs' => cSL :: c ++ path_text cs'
  end.
(** [base] written with or without one trailing slash. *)
Definition with_optional_slash (base p : str) : Prop := p = base \/ p = base ++ [cSL].

(** All positions of a tree in document order (a node before its children, children left to right). *)
Fixpoint preorder (n : node) : list position :=
  match n with
  | Nd _ _ chs _ _ _ =>
      [] :: (fix go (i : nat) (cs : list node) : list position :=
               match cs with
               | [] => []
               | c :: cs' => map (cons i) (preorder c) ++ go (S i) cs'
               end) 0 chs
  end.

(** A line consisting only of a comment. *)
Definition comment_line (n : node) : Prop := n_value n = VSent /\ n_comment n <> [] /\ n_children n = [].
(** Number of non-comment lines. *)
Definition count_elements (l : list node) : nat := length (filter (fun c => negb (is_comment c)) l).
(** A terminal value: nothing below it and not a comment line. *)
Definition terminal (n : node) : bool := is_nil (n_children n) && negb (is_comment n).

(** The path text of a position, computed by walking down the tree.  A list element contributes its index among the
    non-comment lines, a key contributes its name, a plain value (the value of a key) contributes nothing.  (A key that
    is literally "/" is not shown by the code; the other components are.) *)
Definition own_text (E : env) (siblings_before : list node) (n : node) : str :=
  if n_lmf n then cSL :: str_of_nat (count_elements siblings_before)
  else if terminal n && negb (n_keyf n) then []
  else let name := nval_str E (n_value n) in if str_eqb name [cSL] then [] else cSL :: name.
Fixpoint path_at (E : env) (n : node) (p : position) : str :=
  match p with
  | [] => []
  | i :: p' =>
      match nth_error (n_children n) i with
      | None => []
      | Some c => own_text E (firstn i (n_children n)) c ++ path_at E c p'
      end
  end.

(** The position a user addresses to reach the terminal value at [p]: the element itself, the empty key itself, or the
    key that owns the value. *)
Definition owner (root : node) (p : position) : position :=
  match node_at root p with
  | Some n => if n_lmf n || n_keyf n then p else removelast p
  | None => p
  end.

(** Trees whose keys can be addressed: every key name is a non-empty text without slash and not a number, and no earlier
    sibling has the same value; the document root holds no bare value and is not empty. *)
Definition addressable_name (n : node) : bool :=
  n_lmf n || (terminal n && negb (n_keyf n)) || is_comment n
  || match n_value n with
     | VJ (JStr s) => negb (is_nil s) && negb (existsb (ceq cSL) s) && negb (isdigit s)
     | _ => false
     end.
Definition same_name (a b : node) : bool :=
  match n_value b with VJ (JStr s) => val_is (n_value a) s | _ => false end.
Definition is_key_line (n : node) : bool :=
  negb (n_lmf n) && negb (is_comment n) && negb (terminal n && negb (n_keyf n)).
Fixpoint addressable_list (before : list node) (l : list node) : bool :=
  match l with
  | [] => true
  | c :: l' => addressable_name c
               && (negb (is_key_line c) || negb (existsb (fun b => same_name b c) before))
               && addressable_list (before ++ [c]) l'
  end.
Fixpoint addressable (n : node) : bool :=
  match n with
  | Nd _ _ chs _ _ _ =>
      addressable_list [] chs
      && (fix go (cs : list node) : bool := match cs with [] => true | c :: cs' => addressable c && go cs' end) chs
  end.
Definition addressable_document (root : node) : bool :=
  negb (is_nil (n_children root))
  && forallb (fun c => n_lmf c || n_keyf c || negb (terminal c)) (n_children root)
  && addressable root.

(** Comment erasure: all comment-only lines are removed. *)
Fixpoint erase_comment_lines (n : node) : node :=
  match n with
  | Nd v c chs l ml k =>
      Nd v c ((fix go (cs : list node) : list node :=
                 match cs with
                 | [] => []
                 | x :: cs' => if is_comment x then go cs' else erase_comment_lines x :: go cs'
                 end) chs) l ml k
  end.
(** Every list element made of lines (no value of its own) has at least one line that is not a comment. *)
Fixpoint elements_have_content (n : node) : bool :=
  match n with
  | Nd v _ chs _ _ _ =>
      (negb (is_sent v) || is_nil chs || existsb (fun c => negb (is_comment c)) chs)
      && (fix go (cs : list node) : bool :=
            match cs with [] => true | c :: cs' => elements_have_content c && go cs' end) chs
  end.
(** Every section (key or element) that has lines has at least one line that is not a comment. *)
Fixpoint sections_have_content (n : node) : bool :=
  match n with
  | Nd _ _ chs _ _ _ =>
      (is_nil chs || existsb (fun c => negb (is_comment c)) chs)
      && (fix go (cs : list node) : bool :=
            match cs with [] => true | c :: cs' => sections_have_content c && go cs' end) chs
  end.

(** Leibniz equality of primitive values: distinguishes 1, True, 1.0 and "1". *)
Definition prim_dec (a b : prim) : {a = b} + {a <> b}.
Proof. decide equality; try apply (list_eq_dec ascii_dec); try apply Z.eq_dec; apply bool_dec. Defined.
(** What a search for a primitive value should hit. *)
Definition holds_value (v : prim) (n : node) : bool :=
  terminal n
  && (match n_value n with VJ (JP w) => if prim_dec w v then true else false | _ => false end
      || match v with PNull => n_keyf n | _ => false end).
Definition positions_where (f : node -> bool) (root : node) : list position :=
  filter (fun p => match node_at root p with Some n => f n | None => false end) (preorder root).

(** First occurrences of a list, in order (standard library [nodup] keeps last occurrences). *)
Definition first_occurrences (l : list str) : list str := rev (nodup (list_eq_dec ascii_dec) (rev l)).

(** The path text [s] leads to position [p]. *)
Definition addresses (root : node) (s : str) (p : position) : Prop :=
  exists st, str_to_stack_path s = Ok st /\ traverse_pos root st = Some p.
(** The element found at a path text. *)
Definition lookup (root : node) (s : str) : option node :=
  match str_to_stack_path s with Ok st => traverse root st | Err _ => None end.
