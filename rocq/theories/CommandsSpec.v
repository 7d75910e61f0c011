(** Specification vocabulary for the commands.  Nothing here is used by the model. *)
From Coq Require Export Permutation.
From Verif Require Export WriteSpec Commands.

(** * bump-recipe *)

(** Options the command accepts: something to do, no empty version, a positive interval. *)
Definition valid_options (o : bump_options) : Prop :=
  b_target o <> Some [] /\ (0 < b_interval o)%Z /\ (b_build_num o = true \/ b_target o <> None).
(** The build number is set: to its value plus one when it is there and to be incremented, to 0 otherwise. *)
Definition number_step (E : env) (increment : bool) (r r' : recipe) : Prop :=
  (exists v, get_value E (r_root r) $"/build" None None = Ok v) /\
  exists p q, asks p q /\ patch E p r = (Ok true, r') /\
  if increment && match contains_value (r_root r) $"/build/number" with Ok b => b | Err _ => false end
  then exists n, (get_value E (r_root r) $"/build/number" None None = Ok (JInt n)
                  \/ exists b, get_value E (r_root r) $"/build/number" None None = Ok (JBool b) /\ n = (if b then 1 else 0)%Z)
                 /\ q = RReplace $"/build/number" (JInt (n + 1))
  else q = RAdd $"/build/number" (JInt 0).
(** The version is set: in the variable of that name if it has a value, in the package section otherwise. *)
Definition version_step (E : env) (target : str) (r r' : recipe) : Prop :=
  match dget $"version" (r_vars r) with
  | Some v => if match v with JNull => true | _ => false end
              then exists p q, asks p q /\ sets q $"/package/version" (JStr target) /\ patch E p r = (Ok true, r')
              else r' = set_variable $"version" (JStr target) r
  | None => exists p q, asks p q /\ sets q $"/package/version" (JStr target) /\ patch E p r = (Ok true, r')
  end.
(** The archive of a source can be had and has this checksum. *)
Definition checksum (N : net) (path name url sha : str) : Prop :=
  fst (fst (get_sha256 (n_hash N) (n_fetch N path) (new_http name url))) = Ok sha.
Definition is_archive (tbl : sdict source) (path name url : str) : Prop := In (path, SHttp name url) tbl.
(** Patches that set paths to texts, one after the other. *)
Inductive texts_set (E : env) : list (str * str) -> recipe -> recipe -> Prop :=
| texts_done r : texts_set E [] r r
| texts_next s t l r r1 r2 p q : asks p q -> sets q s (JStr t) -> patch E p r = (Ok true, r1) -> texts_set E l r1 r2 ->
    texts_set E ((s, t) :: l) r r2.
(** The checksums are set: in the one variable that the only source uses, or next to each archive, in any order. *)
Definition hash_step (E : env) (N : net) (r r' : recipe) : Prop :=
  exists tbl, from_recipe E r true = Ok tbl /\
  ((tbl = [] /\ r' = r)
   \/ (exists var name url sha, tbl = [($"/source", SHttp name url)] /\ checksum N $"/source" name url sha
         /\ In var [$"sha256"; $"hash"; $"hash_val"; $"hash_value"] /\ In var (list_variables r)
         /\ In $"/source/sha256" (get_variable_references E var r) /\ r' = set_variable var (JStr sha) r)
   \/ (exists l, texts_set E l r r' /\ NoDup (map fst l)
         /\ (forall s t, In (s, t) l -> exists path name url, is_archive tbl path name url /\ checksum N path name url t
                                                       /\ s = path ++ $"/sha256")
         /\ (forall path name url, is_archive tbl path name url -> exists t, In (path ++ $"/sha256", t) l))).
Definition bumped (E : env) (N : net) (o : bump_options) (r r' : recipe) : Prop :=
  match b_target o with
  | None => number_step E (b_build_num o) r r'
  | Some target => exists r1 r2, number_step E (b_build_num o) r r1
      /\ (exists v, get_value E (r_root r1) $"/package/version" (Some JNull) (sub_vars r1) = Ok v)
      /\ version_step E target r1 r2 /\ hash_step E N r2 r'
  end.

(** A key of the recipe: a line "name:". *)
Definition key_at (root : node) (s : str) : Prop := exists n, lookup root s = Some n /\ n_keyf n = true.
(** The key [key] below [parent] can be set to [v], which is then read as [w]: the key is there, or [parent] is a mapping to
    which it can be added. *)
Definition settable (E : env) (root : node) (parent key : str) (v : json) (w : prim) : Prop :=
  (key_at root (parent ++ [cSL] ++ key) /\ scalar_reads E v w)
  \/ (lookup root (parent ++ [cSL] ++ key) = None /\ (exists n, lookup root parent = Some n /\ (n_lmf n = false \/ collection_element n = true))
      /\ entry_reads E key v w).
(** The YAML library reads an integer back. *)
Definition reads_integer (E : env) (z : Z) : Prop := yload E (str_of_Z z) = YOk (JInt z).
Definition writes_number_zero (E : env) : Prop :=
  ydump E (JDict [(PStr $"number", JInt 0)]) = $"number: 0" ++ [cNL]
  /\ yload E $"number: 0" = YOk (JDict [(PStr $"number", JInt 0)]).

(** * The patch command *)

(** The patches are applied one after the other, all successfully. *)
Inductive all_applied (E : env) : list json -> recipe -> recipe -> Prop :=
| applied_none r : all_applied E [] r r
| applied_one p ps r r1 r2 : patch E p r = (Ok true, r1) -> all_applied E ps r1 r2 -> all_applied E (p :: ps) r r2.
Definition patch_list (j : json) : list json := match j with JList l => l | _ => [j] end.

(** * Bulk conversion *)

Definition exceptional (c : exit_code) : Prop :=
  In c [PARSE_EXCEPTION; READ_EXCEPTION; RENDER_EXCEPTION; PRE_PROCESS_EXCEPTION; ILLEGAL_OPERATION].
Definition has_messages (c : category) (t : msg_table) : Prop := get_messages c t <> [].
(** The code fits the messages, as in the results of a conversion. *)
Definition well_coded (r : conversion) : Prop :=
  (c_code r = SUCCESS /\ ~ has_messages ERROR (c_messages r) /\ ~ has_messages WARNING (c_messages r))
  \/ (c_code r = RENDER_WARNINGS /\ ~ has_messages ERROR (c_messages r) /\ has_messages WARNING (c_messages r))
  \/ (c_code r = RENDER_ERRORS /\ has_messages ERROR (c_messages r))
  \/ (exceptional (c_code r) /\ ~ has_messages ERROR (c_messages r) /\ ~ has_messages WARNING (c_messages r)).
Definition count_codes (codes : list exit_code) (l : list (str * conversion)) : nat :=
  length (filter (fun nr => existsb (fun c => Z.eqb (exit_number c) (exit_number (c_code (snd nr)))) codes) l).
Definition with_codes (codes : list exit_code) (l : list (str * conversion)) : list (str * conversion) :=
  filter (fun nr => existsb (fun c => Z.eqb (exit_number c) (exit_number (c_code (snd nr)))) codes) l.
Definition total (h : sdict nat) : nat := fold_right (fun kv n => snd kv + n) 0 h.
Definition messages_of (c : category) (l : list (str * conversion)) : list str :=
  flat_map (fun nr => get_messages c (c_messages (snd nr))) l.
Definition having (c : category) (l : list (str * conversion)) : list str :=
  map fst (filter (fun nr => negb (is_nil (get_messages c (c_messages (snd nr))))) l).
Definition occurrences (x : str) (l : list str) : nat := count_occ (list_eq_dec ascii_dec) l x.
(** The histogram counts the messages of a list. *)
Definition counts (h : sdict nat) (l : list str) : Prop :=
  forall x, dget x h = match occurrences x l with 0 => None | n => Some n end.

(** * The errors of a build *)
(** White space: tab to carriage return, the separators 28 to 31 and the space. *)
Definition white (c : ascii) : Prop := In (nat_of_ascii c) [9; 10; 11; 12; 13; 28; 29; 30; 31; 32].
Definition message_here (s : str) : Prop := exists c t, s = $"Error:" ++ c :: t /\ white c.
(** The messages in the error output, one after the other: each begins with "Error:" and white space, which may go over several lines,
    and goes on to the end of the line. *)
Inductive error_messages : str -> list str -> Prop :=
| no_message s : (forall a b, s = a ++ b -> ~ message_here b) -> error_messages s []
| message a w l t ms :
    (forall a1 a2, a = a1 ++ a2 -> a2 <> [] -> ~ message_here (a2 ++ $"Error:" ++ w ++ l ++ t)) ->
    w <> [] -> (forall c, In c w -> white c) -> (forall c u, l ++ t = c :: u -> ~ white c) ->
    ~ In cNL l -> (t = [] \/ exists u, t = cNL :: u) -> error_messages t ms ->
    error_messages (a ++ $"Error:" ++ w ++ l ++ t) (($"Error:" ++ w ++ l) :: ms).
(** What is reported about one build. *)
Definition build_errors (p : process) (errors : list str) : Prop :=
  match p with
  | TookTooLong => errors = [$"Recipe build dry-run timed out."]
  | Ended _ stderr => error_messages stderr errors
  end.
