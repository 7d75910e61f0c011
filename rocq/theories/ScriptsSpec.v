(** Vocabulary of C111 to C114: the scripts.  Independent of the model's helper functions. *)
From Verif Require Export Scripts ReportSpec.

(** * Statistics *)
Definition its_statistics (r d : jobject) : Prop :=
  assoc_prim (PStr $"stats") r = Some (JDict d)
  \/ (assoc_prim (PStr $"stats") r = None /\ assoc_prim (PStr $"statistics") r = Some (JDict d)).
Definition is_number (j : json) : bool := match j with JP (PBool _) | JP (PInt _) | JP (PFloat _) => true | _ => false end.
Definition number (j : json) : prim := match j with JP p => p | _ => PNull end.
(** The numbers under a key, table by table. *)
Definition numbers_of (k : str) (ds : list jobject) : list prim :=
  map (fun kv => number (snd kv)) (filter (fun kv => is_number (snd kv) && str_eqb (prim_str (fst kv)) k) (concat ds)).
Definition numbered_keys (ds : list jobject) : list str := map (fun kv => prim_str (fst kv)) (filter (fun kv => is_number (snd kv)) (concat ds)).
Definition total_of (A : arith) (l : list prim) : prim := fold_left (a_add A) l (PInt 0).
Definition is_percentage (k : str) : Prop := exists s, k = $"percent_" ++ s.

(** * Log files *)
Inductive log_part := Noise (lines : list str) | Blob (inner : list str).
Definition part_lines (p : log_part) : list str := match p with Noise l => l | Blob l => $"{" :: l ++ [$"}"] end.
Definition part_inner (p : log_part) : list str := match p with Noise l => l | Blob l => l end.
Definition plain_log (l : str) : Prop := l <> $"{" /\ l <> $"}".
Definition parts_ok (ps : list log_part) : Prop := Forall (fun p => Forall plain_log (part_inner p)) ps.
Definition blob_text (inner : list str) : str := join [cNL] ($"{" :: inner ++ [$"}"]).
Definition command_is (data : jobject) (v : json) : Prop :=
  exists d, assoc_prim (PStr $"info") data = Some (JDict d) /\ assoc_prim (PStr $"command_name") d = Some v.
Definition unrecognised (data : jobject) : Prop :=
  assoc_prim (PStr $"info") data = None
  \/ exists d, assoc_prim (PStr $"info") data = Some (JDict d) /\ assoc_prim (PStr $"command_name") d = None.
(** The objects of a log: those of conversions and those of other commands. *)
Inductive objects_of (loads : str -> option jobject) : list log_part -> list jobject -> list jobject -> Prop :=
| ob_none : objects_of loads [] [] []
| ob_noise l ps c d : objects_of loads ps c d -> objects_of loads (Noise l :: ps) c d
| ob_broken l ps c d : loads (blob_text l) = None -> objects_of loads ps c d -> objects_of loads (Blob l :: ps) c d
| ob_unknown l data ps c d : loads (blob_text l) = Some data -> unrecognised data -> objects_of loads ps c d -> objects_of loads (Blob l :: ps) c d
| ob_convert l data ps c d : loads (blob_text l) = Some data -> command_is data (JStr $"convert") -> objects_of loads ps c d ->
    objects_of loads (Blob l :: ps) (data :: c) d
| ob_other l data v ps c d : loads (blob_text l) = Some data -> command_is data v -> json_eqb v (JStr $"convert") = false -> objects_of loads ps c d ->
    objects_of loads (Blob l :: ps) c (data :: d).
(** Time stamps: yyyy-mm-ddThh:mm:ss.fractionZ and a blank. *)
Definition one_of (s : string) (c : ascii) : Prop := In c (lit s).
Definition digit (c : ascii) : Prop := is_digit c = true.
Inductive is_stamp : str -> Prop :=
| stamp y1 y2 y3 y4 m1 m2 d1 d2 h1 h2 n1 n2 s1 s2 f fs b :
    Forall digit [y1; y2; y3; y4; m2; d2; h2; n2; s2; f] -> one_of "01" m1 -> one_of "0123" d1 -> one_of "012" h1 ->
    one_of "012345" n1 -> one_of "012345" s1 -> Forall digit fs -> is_space b = true ->
    is_stamp ([y1; y2; y3; y4] ++ $"-" ++ [m1; m2] ++ $"-" ++ [d1; d2] ++ $"T" ++ [h1; h2] ++ $":" ++ [n1; n2] ++ $":" ++ [s1; s2]
              ++ $"." ++ f :: fs ++ $"Z" ++ [b]).
(** Lines of a log: with or without a stamp, which is not repeated in the line. *)
Definition log_line_ok (sl : str * str) : Prop :=
  (fst sl = [] \/ is_stamp (fst sl)) /\ (forall c, In c (snd sl) -> is_linebreak c = false)
  /\ forall u, is_stamp u -> ~ has_text u (snd sl ++ [cNL]).
Definition log_text (ls : list (str * str)) : str := concat (map (fun sl => fst sl ++ snd sl ++ [cNL]) ls).
(** The files of a directory. *)
Inductive logs_are (loads : str -> option jobject) : list log_file -> list jobject -> list jobject -> Prop :=
| la_none : logs_are loads [] [] []
| la_skipped f fs c d : lf_is_dir f = true \/ lf_name f = $".DS_Store" -> logs_are loads fs c d -> logs_are loads (f :: fs) c d
| la_file f fs ls ps c1 d1 c d : lf_is_dir f = false -> lf_name f <> $".DS_Store" -> lf_content f = log_text ls -> Forall log_line_ok ls ->
    map snd ls = flat_map part_lines ps -> parts_ok ps -> objects_of loads ps c1 d1 -> logs_are loads fs c d ->
    logs_are loads (f :: fs) (c1 ++ c) (d1 ++ d).

(** * The summary *)
Definition ran_in (r : jobject) (dir : str) : Prop :=
  exists i, assoc_prim (PStr $"info") r = Some (JDict i) /\ assoc_prim (PStr $"directory") i = Some (JStr dir).
(** A result with its directory and its statistics. *)
Definition run_of (x : jobject) (y : str * jobject) : Prop := ran_in x (fst y) /\ its_statistics x (snd y).
Definition runs_named (pname : str -> str) (test : str) (l : list (str * jobject)) : list (str * jobject) :=
  filter (fun y => if list_eq_dec ascii_dec (pname (fst y)) test then true else false) l.
(** The value of the last run that has the field. *)
Fixpoint last_value (f : str) (l : list (str * jobject)) : option json :=
  match l with
  | [] => None
  | y :: l' => match last_value f l' with Some v => Some v | None => assoc_prim (PStr f) (snd y) end
  end.
Definition pulled_fields : list str :=
  [$"percent_recipe_exceptions"; $"percent_recipe_errors"; $"percent_recipe_success"; $"percent_errors"; $"percent_success"].

(** * Selecting repositories *)
Definition makes_set (sorted_set : list str -> list str) : Prop := forall l, NoDup (sorted_set l) /\ forall x, In x (sorted_set l) <-> In x l.
Definition samples (sample : list str -> nat -> option (list str)) : Prop :=
  forall l n, NoDup l -> n <= length l -> exists p, sample l n = Some p /\ NoDup p /\ length p = n /\ incl p l.
Definition listed_repo (rows : list (list str)) (x : str) : Prop := exists cols, In (x :: cols) rows.
Definition answered (get : str -> http_answer) (url text : str) : Prop := get url = Answer 200 text.
Definition raw_url (org_repo branch : str) : str := $"https://raw.githubusercontent.com/" ++ org_repo ++ $"/" ++ branch ++ $"/recipe/meta.yaml".
