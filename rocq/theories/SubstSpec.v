(** Property C124: what the expressions of a text are replaced by. *)
From Verif Require Export ConvertSpec JinjaSpec RefSpec.

(** An expression as it is written in each format. *)
Definition written (sv : schema) (x : str) : Prop :=
  match sv with SV0 => expression x | SV1 => exists e, expression e /\ x = "$"%char :: e end.
(** What stands in the braces, without the white space around it. *)
Definition holds_key (sv : schema) (x key : str) : Prop :=
  exists w u, x = opening sv ++ w ++ key ++ u ++ $"}}" /\ blank w /\ blank u
    /\ (forall c t, key = c :: t -> is_space c = false) /\ (forall c t, key = t ++ [c] -> is_space c = false).

(** * Decimal numbers *)
Definition digit_text (d : str) : Prop := d <> [] /\ Forall (fun c => In c (lit "0123456789")) d.
Inductive decimal : str -> nat -> Prop :=
| decimal_none : decimal [] 0
| decimal_more d n c i : decimal d n -> nth_error (lit "0123456789") i = Some c -> decimal (d ++ [c]) (10 * n + i).

(** * Upper and lower case *)
Definition small := lit "abcdefghijklmnopqrstuvwxyz".
Definition capital := lit "ABCDEFGHIJKLMNOPQRSTUVWXYZ".
(** [to] stands where [from] stood; other characters are kept. *)
Definition letter_changed (from to : list ascii) (c d : ascii) : Prop :=
  (exists i, nth_error from i = Some c /\ nth_error to i = Some d) \/ (~ In c from /\ d = c).
Definition lowered (s t : str) : Prop := Forall2 (letter_changed capital small) s t.
Definition uppered (s t : str) : Prop := Forall2 (letter_changed small capital) s t.

(** * Sums *)
Definition quote_text (q : str) : Prop := q = [] \/ q = [cSQ] \/ q = [cDQ].
Definition token (t : str) : Prop :=
  exists q1 b q2, t = q1 ++ b ++ q2 /\ quote_text q1 /\ quote_text q2 /\ b <> []
    /\ Forall (fun c => ConvertSpec.word c \/ c = "."%char) b.
(** A variable; else a number; else a text, without its quotes. *)
Inductive token_value (E : env) (vars : sdict json) (t : str) : json -> Prop :=
| tv_variable v : dget t vars = Some v -> token_value E vars t v
| tv_number n : dget t vars = None -> digit_text t -> decimal t n -> token_value E vars t (JInt (Z.of_nat n))
| tv_float x : dget t vars = None -> ~ digit_text t -> to_float E t = Some x -> token_value E vars t (JFloat x)
| tv_quoted q s : dget t vars = None -> to_float E t = None -> (q = cSQ \/ q = cDQ) -> t = q :: s ++ [q] -> token_value E vars t (JStr s)
| tv_bare : dget t vars = None -> ~ digit_text t -> to_float E t = None -> (forall q s, (q = cSQ \/ q = cDQ) -> t <> q :: s ++ [q]) ->
    token_value E vars t (JStr t).
Inductive whole : json -> Z -> Prop :=
| whole_int z : whole (JInt z) z
| whole_true : whole (JBool true) 1
| whole_false : whole (JBool false) 0.
Inductive number : json -> prim -> Prop :=
| number_whole j z : whole j z -> number j (PInt z)
| number_float x : number (JFloat x) (PFloat x).
(** Two numbers are added; anything else is put together, between quotes. *)
Inductive sum_text (E : env) : json -> json -> str -> Prop :=
| sum_whole l r a b : whole l a -> whole r b -> sum_text E l r (str_of_Z (a + b))
| sum_float l r a b : number l a -> number r b -> ~ (exists x y, whole l x /\ whole r y) -> sum_text E l r (num_add E a b)
| sum_joined l r : ~ (exists a b, number l a /\ number r b) -> sum_text E l r ($"""" ++ json_str l ++ json_str r ++ $"""").

(** * Expressions *)
Definition name_text (k : str) : Prop := k <> [] /\ Forall ConvertSpec.word k.
(** The filters at the end of an expression and what they do. *)
Inductive filters : str -> (str -> str -> Prop) -> Prop :=
| no_filter : filters [] (fun s t => t = s)
| lower_filter g h : gap g -> gap h -> filters (g ++ $"|" ++ h ++ $"lower") lowered
| upper_filter g h : gap g -> gap h -> filters (g ++ $"|" ++ h ++ $"upper") uppered
| both_filters g h g' h' : gap g -> gap h -> gap g' -> gap h' ->
    filters ((g ++ $"|" ++ h ++ $"lower") ++ g' ++ $"|" ++ h' ++ $"upper") uppered.
(** The element taken from a text: one character, or all of it when there is no such character. *)
Inductive element : str -> (str -> str -> Prop) -> Prop :=
| no_element : element [] (fun s t => t = s)
| one_element d n : digit_text d -> decimal d n ->
    element ($"[" ++ d ++ $"]") (fun s t => match nth_error s n with Some c => t = [c] | None => t = s end).
(** No filter for upper or lower case, no element, no sum: whatever stands in the braces is taken as a name. *)
Definition bare_key (key : str) : Prop :=
  (forall g name, gap g -> In name [$"lower"; $"upper"] -> ~ has_text ($"|" ++ g ++ name) key)
  /\ (forall c d, ConvertSpec.word c -> digit_text d -> ~ has_text (c :: $"[" ++ d ++ $"]") key)
  /\ (forall c q1 g h q2 d, (ConvertSpec.word c \/ c = "."%char) -> (ConvertSpec.word d \/ d = "."%char) -> gap g -> gap h ->
        quote_text q1 -> quote_text q2 -> ~ has_text (c :: q1 ++ g ++ $"+" ++ h ++ q2 ++ [d]) key).
(** The text that replaces an expression; none when it is left alone. *)
Inductive evaluates (E : env) (vars : sdict json) : str -> option str -> Prop :=
| ev_bare key v : bare_key key -> dget key vars = Some v -> evaluates E vars key (Some (json_str v))
| ev_unknown key : bare_key key -> dget key vars = None -> evaluates E vars key None
| ev_value name el pick fs change v s1 s2 : name_text name -> element el pick -> filters fs change ->
    dget name vars = Some v -> change (json_str v) s1 -> pick s1 s2 -> evaluates E vars (name ++ el ++ fs) (Some s2)
| ev_no_value name el pick fs change : name_text name -> element el pick -> filters fs change ->
    dget name vars = None -> evaluates E vars (name ++ el ++ fs) None
| ev_sum a g h b l r s : token a -> token b -> gap g -> gap h -> token_value E vars a l -> token_value E vars b r ->
    sum_text E l r s -> evaluates E vars (a ++ g ++ $"+" ++ h ++ b) (Some s).

(** The expression of the text becomes [v]; a value has no opening brace. *)
Definition becomes (E : env) (sv : schema) (vars : sdict json) (x v : str) : Prop :=
  written sv x /\ exists key o, holds_key sv x key /\ evaluates E vars key o
    /\ match o with Some t => v = t /\ ~ In "{"%char t | None => v = x end.
(** A text of the old format that still starts with an expression gets a dollar sign. *)
Definition finished (sv : schema) (t u : str) : Prop :=
  (sv = SV0 /\ (exists r, t = $"{{" ++ r) /\ u = "$"%char :: t)
  \/ (~ (sv = SV0 /\ exists r, t = $"{{" ++ r) /\ u = t).
