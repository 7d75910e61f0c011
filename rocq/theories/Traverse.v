(** parser/_traverse.py.  Node references become positions: a position is the list of child indices from the root. *)
From Verif Require Export Utils.

Definition position := list nat.

Fixpoint node_at (n : node) (p : position) : option node :=
  match p with
  | [] => Some n
  | i :: p' => match nth_error (n_children n) i with
               | Some c => node_at c p'
               | None => None
               end
  end.

Fixpoint map_nth {A} (i : nat) (f : A -> A) (l : list A) : list A :=
  match l, i with
  | [], _ => []
  | x :: l', 0 => f x :: l'
  | x :: l', S j => x :: map_nth j f l'
  end.
(** in-place mutation of the node at a position *)
Fixpoint update_at (p : position) (f : node -> node) (n : node) : node :=
  match p with
  | [] => f n
  | i :: p' => set_children (map_nth i (update_at p' f) (n_children n)) n
  end.

(** parser/_traverse.py 16-41 *)
Fixpoint virt_to_phys_aux (cntr : nat) (l : list node) : list nat :=
  match l with
  | [] => []
  | c :: l' => if is_comment c then virt_to_phys_aux (S cntr) l' else cntr :: virt_to_phys_aux (S cntr) l'
  end.
Definition virt_to_phys (children : list node) : list nat := virt_to_phys_aux 0 children.

(** parser/_traverse.py 44-57 *)
Fixpoint list_set {A} (i : nat) (x : A) (l : list A) : list A :=
  match l, i with
  | [], _ => []
  | _ :: l', 0 => x :: l'
  | y :: l', S j => y :: list_set j x l'
  end.
Definition phys_to_virt (children : list node) : list nat :=
  let mapping := virt_to_phys children in
  fold_left (fun nm i => list_set (nth i mapping 0) i nm) (seq 0 (length mapping)) (repeat 0 (length children)).

(** index of the first child whose value equals the path component *)
Fixpoint find_child (part : str) (i : nat) (l : list node) : option (nat * node) :=
  match l with
  | [] => None
  | c :: l' => if val_is (n_value c) part then Some (i, c) else find_child part (S i) l'
  end.

(** One step of [_traverse_recurse] (parser/_traverse.py 60-97): the child selected by a path component. *)
Definition step_child (n : node) (part : str) : option (nat * node) :=
  if isdigit part then
    match nth_error (virt_to_phys (n_children n)) (int_of part) with
    | None => None                                  (* out of range *)
    | Some i => match nth_error (n_children n) i with
                | Some c => if n_lmf c then Some (i, c) else None
                | None => None
                end
    end
  else find_child part 0 (n_children n).

(** parser/_traverse.py 60-97.  Components are given root first (the Python code pops them from the stack's end). *)
Fixpoint traverse_recurse (n : node) (parts : list str) : option position :=
  match parts with
  | [] => Some []
  | p :: parts' =>
      match step_child n p with
      | None => None
      | Some (i, c) => option_map (cons i) (traverse_recurse c parts')
      end
  end.

(** parser/_traverse.py 100-120, returning the position of the node. *)
Definition traverse_pos (root : node) (path : stack) : option position :=
  match rev path with
  | [] => None
  | [p] => if str_eqb p ROOT_VALUE then Some [] else None
  | _ :: parts => traverse_recurse root parts
  end.
Definition traverse (root : node) (path : stack) : option node :=
  match traverse_pos root path with
  | Some p => node_at root p
  | None => None
  end.

(** parser/_traverse.py 123-154.  Result: position of the node (None: not found), virtual index, physical index;
    an index of None is INVALID_IDX. *)
Definition traverse_with_index (root : node) (path : stack) : res (option position * option nat * option nat) :=
  match path with
  | [] => Ok (None, None, None)
  | p0 :: path' =>
      let '(virt, path1) := if isdigit p0 then (Some (int_of p0), path') else (None, path) in
      match traverse_pos root path1, virt with
      | Some pos, Some v =>
          match node_at root pos with
          | Some n =>
              match nth_error (virt_to_phys (n_children n)) v with
              | None => Err EIndex
              | Some i =>
                  match nth_error (n_children n) i with
                  | Some c => if is_collection c then Ok (Some (pos ++ [i]), None, None)
                              else Ok (Some pos, Some v, Some i)
                  | None => Err EIndex
                  end
              end
          | None => Err EIndex
          end
      | o, _ => Ok (o, virt, None)
      end
  end.

(** parser/_traverse.py 157-191: the sequence of callback invocations (node, path stack).
    [path = None] is the initial call on the root. *)
Definition ta_path (E : env) (n : node) (path : option stack) (idx : nat) : stack :=
  match path with
  | None => [ROOT_VALUE]
  | Some p =>
      if n_lmf n then str_of_nat idx :: p
      else if is_empty_key n || negb (is_leaf n) then nval_str E (n_value n) :: p
      else p
  end.
Fixpoint traverse_all (E : env) (n : node) (path : option stack) (idx : nat) {struct n} : list (node * stack) :=
  match n with
  | Nd v c chs l ml k =>
      let n' := Nd v c chs l ml k in
      let path' := ta_path E n' path idx in
      (n', path') ::
      (fix go (cs : list node) (mp : list nat) {struct cs} : list (node * stack) :=
         match cs, mp with
         | x :: cs', i :: mp' => traverse_all E x (Some path') i ++ go cs' mp'
         | _, _ => []
         end) chs (phys_to_virt chs)
  end.
Definition visits (E : env) (root : node) : list (node * stack) := traverse_all E root None 0.
