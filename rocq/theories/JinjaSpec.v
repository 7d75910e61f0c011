(** Specification vocabulary for quoting, markers and lines with Jinja expressions (C39, C42, C43).
    Nothing here is used by the model. *)
From Verif Require Export SelectorSpec.

Definition has_text (p s : str) : Prop := exists a b, s = a ++ p ++ b.

(** * JSON strings (RFC 8259, section 7), between the quotes *)
Definition short_escapes : list (ascii * nat) :=
  [(cDQ, 34); (cBS, 92); ("/"%char, 47); ("b"%char, 8); ("f"%char, 12); ("n"%char, 10); ("r"%char, 13); ("t"%char, 9)].
Definition hex_value (c : ascii) : option nat :=
  let n := code c in
  if (48 <=? n) && (n <=? 57) then Some (n - 48)
  else if (97 <=? n) && (n <=? 102) then Some (n - 87)
  else if (65 <=? n) && (n <=? 70) then Some (n - 55)
  else None.
Inductive json_chars : str -> str -> Prop :=
| jc_nil : json_chars [] []
| jc_plain c t s : c <> cDQ -> c <> cBS -> 32 <= code c -> json_chars t s -> json_chars (c :: t) (c :: s)
| jc_short e c t s : In (e, code c) short_escapes -> json_chars t s -> json_chars (cBS :: e :: t) (c :: s)
| jc_hex h1 h2 h3 h4 a1 a2 a3 a4 c t s :
    hex_value h1 = Some a1 -> hex_value h2 = Some a2 -> hex_value h3 = Some a3 -> hex_value h4 = Some a4 ->
    code c = ((a1 * 16 + a2) * 16 + a3) * 16 + a4 -> json_chars t s ->
    json_chars (cBS :: "u"%char :: h1 :: h2 :: h3 :: h4 :: t) (c :: s).
(** A visible character or a blank. *)
Definition printable (c : ascii) : Prop := 32 <= code c /\ code c <= 126.
(** The characters that may not start an unquoted value. *)
Definition reserved : list ascii := lit "[],&:*?-=!%@\".
(** Strings that are quoted: they start with a reserved character, or contain a quote and no "${{". *)
Definition needs_quotes (s : str) : Prop :=
  (exists c t, s = c :: t /\ In c reserved) \/ ((In cSQ s \/ In cDQ s) /\ ~ has_text $"${{" s).

(** Letters, digits and the punctuation of Jinja expressions. *)
Definition expression_char (c : ascii) : Prop :=
  In c (lit "0123456789abcdefghijklmnopqrstuvwxyzABCDEFGHIJKLMNOPQRSTUVWXYZ_|'()[], =.-~+") \/ c = cDQ.
(** Strings that are never quoted: they contain a Jinja expression, or a call of match with two arguments. *)
Definition exempt (s : str) : Prop :=
  (exists w v u, has_text ($"{{" ++ w ++ v ++ u ++ $"}}") s /\ blank w /\ Forall expression_char v /\ blank u)
  \/ (exists x y, has_text ($"match(" ++ x ++ $"," ++ y ++ $")") s /\ ~ In cNL x /\ ~ In cNL y).

(** * Markers *)
Definition marker : str := $"__RECIPE_MANAGER_SUBSTITUTION_MARKER__".
Definition jinja_expression (x : str) : Prop := exists body, x = $"{{" ++ body ++ $"}}".
(** Text before a marker that contains none, not even in part. *)
Definition before_marker (p : str) : Prop := forall a b, p ++ marker = a ++ marker ++ b -> b = [].
(** Pieces of text, each followed by a marker. *)
Definition marked (ps : list str) : str := concat (map (fun p => p ++ marker) ps).
(** Pieces of text, each followed by its expression. *)
Fixpoint filled (ps xs : list str) : str :=
  match ps, xs with p :: ps', x :: xs' => p ++ x ++ filled ps' xs' | _, _ => [] end.
(** An expression between double braces that does not contain the marker. *)
Definition fits (x : str) : Prop := jinja_expression x /\ ~ has_text marker x.

(** * Lines with Jinja expressions *)
(** A Jinja expression: double braces around blanks and expression characters. *)
Definition expression (x : str) : Prop :=
  exists w v u, x = $"{{" ++ w ++ v ++ u ++ $"}}" /\ blank w /\ Forall expression_char v /\ blank u.
(** A value that was read from a line whose expressions were replaced by markers, and the value with the expressions put
    back from left to right; the last argument is what is left of the expressions. *)
Inductive restored : json -> list str -> json -> list str -> Prop :=
| rs_text ps last xs ys : Forall before_marker ps -> ~ has_text marker last -> length xs = length ps ->
    ~ needs_quotes (marked ps ++ last) -> restored (JStr (marked ps ++ last)) (xs ++ ys) (JStr (filled ps xs ++ last)) ys
| rs_other p xs : (forall s, p <> PStr s) -> restored (JP p) xs (JP p) xs
| rs_list l xs l' ys : restored_list l xs l' ys -> restored (JList l) xs (JList l') ys
| rs_dict d xs d' ys : map fst d = map fst d' -> restored_list (map snd d) xs (map snd d') ys -> restored (JDict d) xs (JDict d') ys
with restored_list : list json -> list str -> list json -> list str -> Prop :=
| rs_nil xs : restored_list [] xs [] xs
| rs_cons v xs v' ys l l' zs : restored v xs v' ys -> restored_list l ys l' zs -> restored_list (v :: l) xs (v' :: l') zs.
(** How a line of text is read: by the YAML library; or, if that fails and there are Jinja expressions, with the
    expressions replaced by markers, which are replaced again in the result. *)
Definition read_as (E : env) (text : str) (j : json) : Prop :=
  yload E text = YOk j
  \/ exists ps last xs j0,
       text = filled ps xs ++ last /\ length xs = length ps /\ xs <> []
       /\ Forall (fun p => ~ In "{"%char p) ps /\ ~ In "{"%char last /\ Forall expression xs
       /\ ~ has_text marker text /\ (forall j', yload E text <> YOk j')
       /\ yload E (marked ps ++ last) = YOk j0 /\ restored j0 xs j [].
