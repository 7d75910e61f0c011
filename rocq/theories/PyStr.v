(** Python string primitives used by conda-recipe-manager.

    A Python [str] is modelled as a list of ASCII characters.  Characters with
    a code >= 128 are inert: neither white space, nor digits, nor letters.
    (Simplification: Python strings are sequences of Unicode code points.) *)
From Coq Require Export Ascii String Bool Arith Lia ZArith List.
Export ListNotations.
Open Scope list_scope.

Definition str := list ascii.

(** String literals: [$ "abc"] is the Python literal "abc". *)
Definition lit (s : string) : str := list_ascii_of_string s.
Notation "$ x" := (lit x) (at level 0, x at level 0, format "$ x").
Definition pr (s : str) : string := string_of_list_ascii s.

Definition code (c : ascii) : nat := nat_of_ascii c.
Definition ch (n : nat) : ascii := ascii_of_nat n.
Definition ceq (a b : ascii) : bool := Ascii.eqb a b.

(** Frequently used characters. *)
Definition cNL : ascii := ch 10.
Definition cSP : ascii := " "%char.
Definition cSL : ascii := "/"%char.
Definition cDQ : ascii := ch 34.
Definition cSQ : ascii := "'"%char.
Definition cBS : ascii := "\"%char.
Definition cHASH : ascii := "#"%char.
Definition cLB : ascii := "["%char.
Definition cRB : ascii := "]"%char.

(** [a == b] on strings. *)
Fixpoint str_eqb (a b : str) : bool :=
  match a, b with
  | [], [] => true
  | x :: a', y :: b' => ceq x y && str_eqb a' b'
  | _, _ => false
  end.

(** [c.isspace()] / regex [\s] restricted to ASCII: \t \n \v \f \r, 0x1c-0x1f, space. *)
Definition is_space (c : ascii) : bool :=
  let n := code c in
  ((9 <=? n) && (n <=? 13)) || ((28 <=? n) && (n <=? 31)) || (n =? 32).

Definition is_digit (c : ascii) : bool := let n := code c in (48 <=? n) && (n <=? 57).
Definition is_lower (c : ascii) : bool := let n := code c in (97 <=? n) && (n <=? 122).
Definition is_upper (c : ascii) : bool := let n := code c in (65 <=? n) && (n <=? 90).
(** regex [\w] restricted to ASCII. *)
Definition is_word (c : ascii) : bool :=
  is_digit c || is_lower c || is_upper c || ceq c "_"%char.

Definition lower_c (c : ascii) : ascii := if is_upper c then ch (code c + 32) else c.
Definition upper_c (c : ascii) : ascii := if is_lower c then ch (code c - 32) else c.
(** [s.lower()], [s.upper()]. *)
Definition lower (s : str) : str := map lower_c s.
Definition upper (s : str) : str := map upper_c s.

(** [s.startswith(p)]. *)
Fixpoint starts_with (p s : str) : bool :=
  match p, s with
  | [], _ => true
  | x :: p', y :: s' => ceq x y && starts_with p' s'
  | _ :: _, [] => false
  end.
(** [s.endswith(p)]. *)
Definition ends_with (p s : str) : bool := starts_with (rev p) (rev s).

(** [s.lstrip()], [s.rstrip()], [s.strip()]. *)
Fixpoint lstrip (s : str) : str :=
  match s with
  | [] => []
  | c :: s' => if is_space c then lstrip s' else s
  end.
Definition rstrip (s : str) : str := rev (lstrip (rev s)).
Definition strip (s : str) : str := lstrip (rstrip s).

(** [s.isdigit()]: non-empty and only decimal digits. *)
Definition isdigit (s : str) : bool :=
  match s with [] => false | _ => forallb is_digit s end.

(** [int(s)] for a string accepted by [isdigit]. *)
Definition digit_val (c : ascii) : nat := code c - 48.
Fixpoint int_acc (acc : nat) (s : str) : nat :=
  match s with
  | [] => acc
  | c :: s' => int_acc (10 * acc + digit_val c) s'
  end.
Definition int_of (s : str) : nat := int_acc 0 s.

(** [str(n)] for a natural number. *)
Fixpoint digits_fuel (fuel n : nat) (acc : str) : str :=
  match fuel with
  | 0 => acc
  | S f =>
      let acc' := ch (48 + n mod 10) :: acc in
      if n <? 10 then acc' else digits_fuel f (n / 10) acc'
  end.
Definition str_of_nat (n : nat) : str := digits_fuel (S n) n [].
(** [str(z)] for an integer. *)
Definition str_of_N (n : N) : str :=
  let fix go (fuel : nat) (n : N) (acc : str) :=
    match fuel with
    | 0 => acc
    | S f =>
        let acc' := ch (48 + N.to_nat (n mod 10)%N) :: acc in
        if (n <? 10)%N then acc' else go f (n / 10)%N acc'
    end in
  go (S (N.to_nat (N.log2 n))) n [].
Definition str_of_Z (z : Z) : str :=
  match z with
  | Z0 => $"0"
  | Zpos p => str_of_N (Npos p)
  | Zneg p => "-"%char :: str_of_N (Npos p)
  end.

(** [s.split(c)] for a one-character separator: never empty. *)
Fixpoint split_on (c : ascii) (s : str) : list str :=
  match s with
  | [] => [[]]
  | x :: s' =>
      if ceq x c then [] :: split_on c s'
      else match split_on c s' with
           | [] => [[x]]
           | w :: ws => (x :: w) :: ws
           end
  end.

(** [s.split()]: split on runs of white space, no empty words. *)
Fixpoint split_ws_aux (cur : str) (s : str) : list str :=
  match s with
  | [] => match cur with [] => [] | _ => [rev cur] end
  | c :: s' =>
      if is_space c
      then match cur with [] => split_ws_aux [] s' | _ => rev cur :: split_ws_aux [] s' end
      else split_ws_aux (c :: cur) s'
  end.
Definition split_ws (s : str) : list str := split_ws_aux [] s.

(** [sep.join(l)]. *)
Fixpoint join (sep : str) (l : list str) : str :=
  match l with
  | [] => []
  | [x] => x
  | x :: l' => x ++ sep ++ join sep l'
  end.

(** Line boundaries of [str.splitlines()] (ASCII part): \n \v \f \r 0x1c 0x1d 0x1e; "\r\n" counts once. *)
Definition is_linebreak (c : ascii) : bool :=
  let n := code c in ((10 <=? n) && (n <=? 13)) || ((28 <=? n) && (n <=? 30)).
Fixpoint splitlines_aux (cur : str) (s : str) : list str :=
  match s with
  | [] => match cur with [] => [] | _ => [rev cur] end
  | c :: s' =>
      if is_linebreak c then
        if (code c =? 13) then
          match s' with
          | d :: s'' => if code d =? 10 then rev cur :: splitlines_aux [] s''
                        else rev cur :: splitlines_aux [] s'
          | [] => [rev cur]
          end
        else rev cur :: splitlines_aux [] s'
      else splitlines_aux (c :: cur) s'
  end.
Definition splitlines (s : str) : list str := splitlines_aux [] s.

(** [p in s]. *)
Fixpoint contains_sub (p s : str) : bool :=
  starts_with p s || match s with [] => false | _ :: s' => contains_sub p s' end.
(** [s.find(p)] as an option (None is -1). *)
Fixpoint find_sub (p s : str) : option nat :=
  if starts_with p s then Some 0
  else match s with
       | [] => None
       | _ :: s' => option_map S (find_sub p s')
       end.

(** [s.replace(old, new, 1)] for a non-empty [old]. *)
Fixpoint replace_first (old new s : str) : str :=
  if starts_with old s then new ++ skipn (length old) s
  else match s with
       | [] => []
       | c :: s' => c :: replace_first old new s'
       end.
(** [s.replace(old, new)] for a non-empty [old]: left to right, non-overlapping. *)
Fixpoint replace_all_aux (old new : str) (skip : nat) (s : str) : str :=
  match s with
  | [] => []
  | c :: s' =>
      match skip with
      | S k => replace_all_aux old new k s'
      | 0 => if starts_with old s then new ++ replace_all_aux old new (length old - 1) s'
             else c :: replace_all_aux old new 0 s'
      end
  end.
Definition replace_all (old new s : str) : str := replace_all_aux old new 0 s.

(** [" " * n]. *)
Definition spaces (n : nat) : str := repeat cSP n.

(** membership of a string in a list of strings *)
Definition mem_str (x : str) (l : list str) : bool := existsb (str_eqb x) l.

(** Insertion-ordered dictionaries with string keys. *)
Section Dict.
Context {V : Type}.
Definition sdict := list (str * V).
Fixpoint dget (k : str) (d : sdict) : option V :=
  match d with
  | [] => None
  | (k', v) :: d' => if str_eqb k k' then Some v else dget k d'
  end.
(** [d[k] = v]: overwrite in place or append. *)
Fixpoint dset (k : str) (v : V) (d : sdict) : sdict :=
  match d with
  | [] => [(k, v)]
  | (k', v') :: d' => if str_eqb k k' then (k', v) :: d' else (k', v') :: dset k v d'
  end.
(** [del d[k]]. *)
Fixpoint ddel (k : str) (d : sdict) : sdict :=
  match d with
  | [] => []
  | (k', v') :: d' => if str_eqb k k' then d' else (k', v') :: ddel k d'
  end.
Definition dmem (k : str) (d : sdict) : bool := match dget k d with Some _ => true | None => false end.
Definition dkeys (d : sdict) : list str := map fst d.
End Dict.
Arguments sdict : clear implicits.
