(** A small backtracking regular-expression matcher with Python's priority
    order, and the patterns of [Regex] (parser/_types.py 120-204). *)
From Verif Require Export PyStr.

Inductive re :=
| Chr (p : ascii -> bool)        (* one character of a class *)
| Eps
| Seq (a b : re)
| Alt (a b : re)                 (* a|b, a first *)
| StarC (p : ascii -> bool)      (* class*, greedy *)
| Opt (a : re)                   (* a?, greedy *)
| Grp (n : nat) (a : re)         (* capturing group *)
| NotAfter (p : ascii -> bool).  (* (?<!c) *)

(** Matcher state: previous character, position, remaining text, captured groups (start, end). *)
Record mst := { prevc : option ascii; pos : nat; rest : str; grps : list (nat * (nat * nat)) }.

Definition adv (st : mst) : mst :=
  match rest st with
  | [] => st
  | c :: r => {| prevc := Some c; pos := S (pos st); rest := r; grps := grps st |}
  end.

(** Greedy star over a class, by recursion on the remaining text. *)
Fixpoint star_k {A} (p : ascii -> bool) (s : str) (st : mst) (k : mst -> option A) : option A :=
  match s with
  | c :: s' =>
      if p c then
        match star_k p s' (adv st) k with
        | Some r => Some r
        | None => k st
        end
      else k st
  | [] => k st
  end.

Fixpoint m {A} (r : re) (st : mst) (k : mst -> option A) : option A :=
  match r with
  | Chr p => match rest st with
             | c :: _ => if p c then k (adv st) else None
             | [] => None
             end
  | Eps => k st
  | Seq a b => m a st (fun st' => m b st' k)
  | Alt a b => match m a st k with Some x => Some x | None => m b st k end
  | StarC p => star_k p (rest st) st k
  | Opt a => match m a st k with Some x => Some x | None => k st end
  | Grp n a => m a st (fun st' => k {| prevc := prevc st'; pos := pos st'; rest := rest st';
                                         grps := (n, (pos st, pos st')) :: grps st' |})
  | NotAfter p => match prevc st with
                  | Some c => if p c then None else k st
                  | None => k st
                  end
  end.

Record rmatch := { m_start : nat; m_end : nat; m_grps : list (nat * (nat * nat)) }.

Definition start_st (prev : option ascii) (p : nat) (s : str) : mst :=
  {| prevc := prev; pos := p; rest := s; grps := [] |}.
(** match anchored at the current position *)
Definition match_at (r : re) (prev : option ascii) (p : nat) (s : str) : option rmatch :=
  m r (start_st prev p s) (fun st => Some {| m_start := p; m_end := pos st; m_grps := grps st |}).
(** [re.match(s)] *)
Definition re_match (r : re) (s : str) : option rmatch := match_at r None 0 s.
(** [re.search(s)] *)
Fixpoint search_from (r : re) (prev : option ascii) (p : nat) (s : str) : option rmatch :=
  match match_at r prev p s with
  | Some x => Some x
  | None => match s with
            | [] => None
            | c :: s' => search_from r (Some c) (S p) s'
            end
  end.
Definition re_search (r : re) (s : str) : option rmatch := search_from r None 0 s.

Definition slice (a b : nat) (s : str) : str := firstn (b - a) (skipn a s).
(** [match.group(0)] *)
Definition group0 (s : str) (x : rmatch) : str := slice (m_start x) (m_end x) s.
(** [match.group(n)]; None when the group did not take part. The most recent capture is first. *)
Definition group (n : nat) (s : str) (x : rmatch) : option str :=
  match find (fun g => fst g =? n) (m_grps x) with
  | Some (_, (a, b)) => Some (slice a b s)
  | None => None
  end.
Definition group_start (n : nat) (x : rmatch) : option nat :=
  option_map (fun g => fst (snd g)) (find (fun g => fst g =? n) (m_grps x)).

(** Non-overlapping scan used by [findall] and [sub]; [skip] characters belong to the previous match.
    Only used with patterns that cannot match the empty string. *)
Fixpoint scan (r : re) (prev : option ascii) (p skip : nat) (s : str) : list rmatch :=
  match s with
  | [] => []
  | c :: s' =>
      match skip with
      | S k => scan r (Some c) (S p) k s'
      | 0 => match match_at r prev p s with
             | Some x => x :: scan r (Some c) (S p) (m_end x - m_start x - 1) s'
             | None => scan r (Some c) (S p) 0 s'
             end
      end
  end.
(** [re.findall(s)] for a pattern without groups *)
Definition findall (r : re) (s : str) : list str := map (group0 s) (scan r None 0 0 s).
(** [re.sub(f, s)] *)
Fixpoint sub_aux (r : re) (whole : str) (f : rmatch -> str) (prev : option ascii) (p skip : nat) (s : str) : str :=
  match s with
  | [] => []
  | c :: s' =>
      match skip with
      | S k => sub_aux r whole f (Some c) (S p) k s'
      | 0 => match match_at r prev p s with
             | Some x => f x ++ sub_aux r whole f (Some c) (S p) (m_end x - m_start x - 1) s'
             | None => c :: sub_aux r whole f (Some c) (S p) 0 s'
             end
      end
  end.
Definition re_sub_f (r : re) (f : rmatch -> str) (s : str) : str := sub_aux r s f None 0 0 s.
Definition re_sub (r : re) (new s : str) : str := re_sub_f r (fun _ => new) s.

(** Building blocks *)
Definition C (c : ascii) : re := Chr (ceq c).
Fixpoint L_ (s : str) : re := match s with [] => Eps | [c] => C c | c :: s' => Seq (C c) (L_ s') end.
Definition L (s : string) : re := L_ (lit s).
Fixpoint seqs (l : list re) : re := match l with [] => Eps | [x] => x | x :: l' => Seq x (seqs l') end.
Definition any_c (c : ascii) : bool := negb (ceq c cNL).   (* . *)
Definition DOTS : re := StarC any_c.                       (* .* *)
Definition WS : re := StarC is_space.                      (* \s* *)
Definition WS1 : re := Seq (Chr is_space) WS.              (* \s+ *)
Definition DIG1 : re := Seq (Chr is_digit) (StarC is_digit). (* [0-9]+ *)
Definition is_quote (c : ascii) : bool := ceq c cDQ || ceq c cSQ.

(** _JINJA_VAR_FUNCTION_PATTERN (parser/_types.py 129) *)
Definition jinja_c (c : ascii) : bool :=
  is_digit c || is_lower c || is_upper c || existsb (ceq c) (lit "_|'()[], =.-~+") || ceq c cDQ.
Definition JINJA_VAR : re := StarC jinja_c.

(** parser/_types.py 126 *)
Definition V0_UNSUPPORTED_JINJA : re := L ".join(".
(** parser/_types.py 159-163 *)
Definition SEL_PY_VERSION : re :=
  seqs [L "py"; WS; Grp 1 (Alt (L "<") (Alt (L ">") (Alt (L "<=") (Alt (L ">=") (Alt (L "==") (L "!="))))));
        WS; Grp 2 (Alt (L "3") (L "2")); Grp 3 DIG1].
Definition SEL_PY_EQ : re := seqs [L "py"; Grp 1 (Alt (L "3") (L "2")); Grp 2 DIG1].
Definition SEL_PY_NE : re := seqs [L "not py"; Grp 1 (Alt (L "3") (L "2")); Grp 2 DIG1].
Definition SEL_PY2K : re := L "py2k".
Definition SEL_PY3K : re := L "py3k".
(** parser/_types.py 166-175 *)
Definition JINJA_V0_SUB : re := seqs [L "{{"; WS; JINJA_VAR; WS; L "}}"].
Definition JINJA_V0_LINE : re :=
  seqs [Grp 1 (Alt (seqs [L "{%"; DOTS; L "%}"]) (seqs [L "{#"; DOTS; L "#}"])); C cNL].
Definition JINJA_V0_SET_LINE : re :=
  seqs [L "{%"; WS; L "set"; WS; JINJA_VAR; WS; L "="; DOTS; L "%}"; WS; C cNL].
Definition JINJA_REPLACE_V0_STARTING_MARKER : re := seqs [NotAfter (ceq "$"%char); L "{{"].
Definition JINJA_V1_SUB : re := seqs [L "${{"; WS; JINJA_VAR; WS; L "}}"].
(** parser/_types.py 179-187 *)
Definition JINJA_FUNCTION_LOWER : re := seqs [L "|"; WS; Grp 1 (L "lower")].
Definition JINJA_FUNCTION_UPPER : re := seqs [L "|"; WS; Grp 1 (L "upper")].
Definition JINJA_FUNCTION_REPLACE : re := seqs [L "|"; WS; Grp 1 (L "replace"); L "("; Grp 2 DOTS; L ")"].
Definition JINJA_FUNCTION_IDX_ACCESS : re :=
  seqs [Grp 1 (Seq (Chr is_word) (StarC is_word)); L "["; Grp 2 DIG1; L "]"].
Definition word_dot (c : ascii) : bool := is_word c || ceq c "."%char.
Definition JINJA_TOKEN : re :=
  seqs [Opt (Chr is_quote); Chr word_dot; StarC word_dot; Opt (Chr is_quote)].
Definition JINJA_FUNCTION_ADD_CONCAT : re :=
  seqs [Grp 1 JINJA_TOKEN; WS; L "+"; WS; Grp 2 JINJA_TOKEN].
Definition JINJA_FUNCTION_MATCH : re := seqs [L "match("; DOTS; L ","; DOTS; L ")"].
Definition JINJA_FUNCTIONS_SET : list re :=
  [JINJA_FUNCTION_LOWER; JINJA_FUNCTION_UPPER; JINJA_FUNCTION_REPLACE; JINJA_FUNCTION_IDX_ACCESS;
   JINJA_FUNCTION_ADD_CONCAT; JINJA_FUNCTION_MATCH].
(** parser/_types.py 197: a bracket, anything on the same line (greedy), a closing bracket *)
Definition SELECTOR : re := seqs [C cLB; DOTS; C cRB].
(** parser/_types.py 200 (used with match, so the leading anchor is implicit) *)
Definition MULTILINE : re :=
  seqs [WS; DOTS; L ":"; WS1; Grp 1 (Alt (L "|") (L ">")); Opt (Grp 2 (Alt (L "+") (L "-")));
        Grp 3 (Alt WS (seqs [WS1; L "#"; DOTS]))].
(** parser/_types.py 204; group 1 (the white space) is never used and not captured here *)
Definition DETECT_TRAILING_COMMENT : re := seqs [Chr is_space; WS; Grp 2 (L "#")].

(** [search_any_regex] (parser/_utils.py 220-232) *)
Definition search_any_regex (rs : list re) (s : str) : bool :=
  existsb (fun r => match re_search r s with Some _ => true | None => false end) rs.

(** [Regex.X.search(s)] as a Boolean, and the text of the match *)
Definition found (r : re) (s : str) : bool := match re_search r s with Some _ => true | None => false end.
Definition matched (r : re) (s : str) : bool := match re_match r s with Some _ => true | None => false end.
Definition search_text (r : re) (s : str) : option str := option_map (group0 s) (re_search r s).
