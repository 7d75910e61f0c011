(** Specification vocabulary for message tables, licenses, fetchers and dependency scanners.  Independent of the model's
    helper functions. *)
From Verif Require Export Messages Spdx Fetch Scan DepsSpec.

(** * Message tables *)
Inductive msg_op := MAdd (c : category) (m : str) | MClear.
(** The messages logged in a category since the last clear, oldest first. *)
Inductive logged (c : category) : list msg_op -> list str -> Prop :=
| lg_start : logged c [] []
| lg_mine h l m : logged c h l -> logged c (h ++ [MAdd c m]) (l ++ [m])
| lg_other h l d m : logged c h l -> d <> c -> logged c (h ++ [MAdd d m]) l
| lg_clear h : logged c (h ++ [MClear]) [].
(** The table after a history of calls. *)
Definition msg_step (t : msg_table) (op : msg_op) : msg_table :=
  match op with MAdd c m => add_message c m t | MClear => clear_messages t end.
Definition table_after (h : list msg_op) : msg_table := fold_left msg_step h new_table.
(** "1 error", "2 errors" *)
Definition counted (n : nat) (what : str) (s : str) : Prop :=
  (n = 1 /\ s = $"1 " ++ what) \/ (n <> 1 /\ s = str_of_nat n ++ $" " ++ what ++ $"s").

(** * Licenses *)
(** [op] occurs in [s] whatever the case of its letters. *)
Definition mentions (op s : str) : Prop := exists a m b, s = a ++ m ++ b /\ upper m = op.
Definition compound (s : str) : Prop := mentions $"AND" s \/ mentions $"OR" s \/ mentions $"WITH" s \/ In ","%char s.
Definition known_id (db : list license) (s : str) : Prop := exists l, In l db /\ l_id l = s.
Definition override (s : str) : Prop := s = $"BSD-2-Clause" \/ s = $"NOASSERTION".
(** Texts with a fixed correction, in any case and with blanks around them *)
Inductive corrected (s : str) : str -> Prop :=
| cr_bsd m : trims s m -> upper m = lit "BSD 2-CLAUSE ""SIMPLIFIED""" -> corrected s $"BSD-2-Clause"
| cr_unlimited m : trims s m -> upper m = $"UNLIMITED" -> corrected s $"NOASSERTION".
(** The name of the last license with that name. *)
Definition names_license (db : list license) (name id : str) : Prop :=
  exists before l after, db = before ++ l :: after /\ l_name l = name /\ l_id l = id
    /\ (forall x, In x after -> l_name x <> name) /\ (forall x, In x db -> l_id x <> name).
(** A matcher that finds a candidate that is equal to the text. *)
Definition finds_equal (close : close_match) : Prop := forall w l, In w l -> close w l = Some w.

(** * Fetchers *)
(** Calls on an HTTP fetcher and on a git fetcher. *)
Inductive http_call := HFetch (io : http_io) | HSource | HSha | HType.
Inductive git_call := GFetch (clone : clone_result) | GSource.
(** What a call returns; accessors return their value as a text or a type. *)
Inductive reply := RDone | RSha (s : str) | RType (t : archive_type) | RFail (e : exn).
Definition reply_of {A} (f : A -> reply) (o : res A) : reply := match o with Ok a => f a | Err e => RFail e end.
Definition http_reply (hash : str -> str) (c : http_call) (f : http_fetcher) : reply * http_fetcher :=
  match c with
  | HFetch io => let '(o, f') := http_fetch io f in (reply_of (fun _ => RDone) o, f')
  | HSource => (reply_of (fun _ => RDone) (http_source_code f), f)
  | HSha => (reply_of RSha (http_sha256 hash f), f)
  | HType => (reply_of RType (http_archive_type f), f)
  end.
Definition git_reply (c : git_call) (f : git_fetcher) : reply * git_fetcher :=
  match c with
  | GFetch cl => let '(o, f') := git_fetch cl f in (reply_of (fun _ => RDone) o, f')
  | GSource => (reply_of (fun _ => RDone) (git_source_code f), f)
  end.
(** The calls and replies of a session. *)
Inductive session {C S} (step : C -> S -> reply * S) : S -> list (C * reply) -> S -> Prop :=
| ss_nil f : session step f [] f
| ss_snoc f h g c r g' : session step f h g -> step c g = (r, g') -> session step f (h ++ [(c, r)]) g'.
Definition is_fetch_http (c : http_call) : Prop := exists io, c = HFetch io.
Definition is_fetch_git (c : git_call) : Prop := exists cl, c = GFetch cl.
(** Some earlier fetch of the session succeeded. *)
Definition fetched_before {C} (is_fetch : C -> Prop) (h : list (C * reply)) : Prop :=
  exists c, is_fetch c /\ In (c, RDone) h.
(** The download of an attempt left this file behind. *)
Definition downloaded (io : http_io) (b : str) : Prop := io_file io = Some b.
(** The commit a git source asks for: its tag, or else its revision, or else its branch. *)
Definition requested (t : git_target) (name : str) : Prop :=
  g_tag t = Some name
  \/ (g_tag t = None /\ g_rev t = Some name)
  \/ (g_tag t = None /\ g_rev t = None /\ g_branch t = Some name).
Definition nothing_requested (t : git_target) : Prop := g_tag t = None /\ g_rev t = None /\ g_branch t = None.

(** The archive could be recognised. *)
Definition archive (io : http_io) : Prop := io_is_tar io = inr true \/ (io_is_tar io = inr false /\ io_is_zip io = inr true).
(** Looking at the archive or unpacking it ends with this error. *)
Inductive archive_breaks (io : http_io) (e : io_error) : Prop :=
| ab_tar : io_is_tar io = inl e -> archive_breaks io e
| ab_zip : io_is_tar io = inr false -> io_is_zip io = inl e -> archive_breaks io e
| ab_unpack : archive io -> io_extract io = Some e -> archive_breaks io e.
(** An attempt to get a checksum fails for a reason that leads to a new attempt, ... *)
Inductive attempt_fails (io : http_io) : Prop :=
| af_download e : io_download io = Some e -> e = RequestError \/ e = FileError -> attempt_fails io
| af_archive e : io_download io = None -> archive_breaks io e -> e = FileError \/ e = ArchiveError -> attempt_fails io
| af_unknown : io_download io = None -> io_is_tar io = inr false -> io_is_zip io = inr false -> attempt_fails io.
(** ... it succeeds with a file, ... *)
Definition attempt_succeeds (io : http_io) (b : str) : Prop :=
  downloaded io b /\ io_download io = None /\ archive io /\ io_extract io = None.
(** ... or another exception ends everything. *)
Definition attempt_breaks (io : http_io) (e : exn) : Prop :=
  io_download io = Some (OtherError e) \/ (io_download io = None /\ archive_breaks io (OtherError e)).

(** * Scanners *)
(** A module that a file imports: the part of the imported name before the first dot. *)
Definition imported_name (i : import_stmt) (s : str) : Prop :=
  match i with
  | Import l => In s l
  | ImportFrom _ o => o = Some s
  end.
Definition first_part (s m : str) : Prop := (s = m \/ exists t, s = m ++ "."%char :: t) /\ ~ In "."%char m.
Definition imports_module (f : source_file) (m : str) : Prop :=
  exists l i s, sf_imports f = inr l /\ In i l /\ imported_name i s /\ first_part s m.
(** It is neither empty nor part of the standard library or the project. *)
Definition foreign (M : modules) (m : str) : Prop := m <> [] /\ stdlib M m = false /\ project M m = false.
Definition test_file (f : source_file) : Prop :=
  (exists t, lower (sf_name f) = $"test_" ++ t) \/ (exists t, lower (sf_name f) = t ++ $"_test.py").
(** The package that provides a module: of the same name, except for some well-known modules. *)
Definition renamed_modules : list (str * str) :=
  map (fun p => (lit (fst p), lit (snd p))) [("cv", "py-opencv"); ("cv2", "py-opencv"); ("git", "gitpython"); ("OpenGL", "pyopengl");
    ("PIL", "pillow"); ("sklearn", "scikit-learn"); ("tables", "pytables"); ("yaml", "pyyaml")]%string.
Definition provides (package m : str) : Prop :=
  In (m, package) renamed_modules \/ (package = m /\ ~ In m (map fst renamed_modules)).
(** A dependency that a file asks for. *)
Definition asks_for (MS : match_spec) (M : modules) (f : source_file) (d : project_dep) : Prop :=
  exists m package, imports_module f m /\ foreign M m /\ provides package m
  /\ pd_data d = dependency_data_from_str MS package
  /\ ((test_file f /\ pd_type d = TESTS) \/ (~ test_file f /\ pd_type d = RUN)).
Definition python_dep (MS : match_spec) (t : dep_section) : project_dep :=
  {| pd_data := dependency_data_from_str MS $"python"; pd_type := t |}.
(** The same dependency (equal data, same section) is an element. *)
Definition same_dep (same : data_eq) (a b : project_dep) : Prop := same (pd_data a) (pd_data b) = true /\ pd_type a = pd_type b.
Definition element (same : data_eq) (d : project_dep) (l : list project_dep) : Prop := exists x, In x l /\ same_dep same d x.
(** No two elements are equal. *)
Definition distinct (same : data_eq) (l : list project_dep) : Prop := ForallOrdPairs (fun a b => ~ same_dep same a b) l.
Definition equivalence (same : data_eq) : Prop :=
  (forall a, same a a = true) /\ (forall a b, same a b = true -> same b a = true)
  /\ (forall a b c, same a b = true -> same b c = true -> same a c = true).
(** Some file asks for the dependency. *)
Definition wanted (MS : match_spec) (same : data_eq) (M : modules) (files : list source_file) (d : project_dep) : Prop :=
  exists f d', In f files /\ asks_for MS M f d' /\ same_dep same d d'.
(** The messages about files that cannot be read or parsed. *)
Inductive unreadable : list source_file -> list str -> Prop :=
| ur_nil : unreadable [] []
| ur_good f fs l i : sf_imports f = inr i -> unreadable fs l -> unreadable (f :: fs) l
| ur_bad f fs l e : sf_imports f = inl e -> unreadable fs l ->
    unreadable (f :: fs) (($"Exception encountered while scanning `" ++ sf_path f ++ $"`: " ++ e) :: l).

(** * Mappings *)
(** The first value of a key, and a key without a value. *)
Definition has_field (k : str) (d : list (prim * json)) (v : json) : Prop :=
  exists before after, d = before ++ (PStr k, v) :: after /\ forall w, ~ In (PStr k, w) before.
Definition no_field (k : str) (d : list (prim * json)) : Prop := forall w, ~ In (PStr k, w) d.
(** The names in [project.dependencies] and the groups of [project.optional-dependencies] *)
Definition project_names (p : list (prim * json)) (l : list str) : Prop :=
  (no_field $"dependencies" p /\ l = []) \/ has_field $"dependencies" p (JList (map (fun n => JStr n) l)).
Definition project_groups (p : list (prim * json)) (gs : list (prim * list str)) : Prop :=
  (no_field $"optional-dependencies" p /\ gs = [])
  \/ has_field $"optional-dependencies" p (JDict (map (fun g => (fst g, JList (map (fun n => JStr n) (snd g)))) gs)).
Definition dep_named (MS : match_spec) (n : str) (t : dep_section) : project_dep :=
  {| pd_data := dependency_data_from_str MS n; pd_type := t |}.

(** * Sources of a recipe *)
(** The text of a field; null counts as missing. *)
Definition text_of (d : list (prim * json)) (k : str) (o : option str) : Prop :=
  (o = None /\ (no_field k d \/ has_field k d JNull)) \/ (exists v, has_field k d v /\ v <> JNull /\ o = Some (json_str v)).
Definition git_keys (sv : schema) : str * str * str * str :=
  match sv with
  | SV0 => ($"git_url", $"git_branch", $"git_tag", $"git_rev")
  | SV1 => ($"git", $"branch", $"tag", $"rev")
  end.
(** A source section describes an archive or a repository. *)
Inductive describes (sv : schema) (name : str) (d : list (prim * json)) : source -> Prop :=
| ds_http u : text_of d $"url" (Some u) -> describes sv name d (SHttp name u)
| ds_git ku kb kt kr u b t r : git_keys sv = (ku, kb, kt, kr) ->
    text_of d $"url" None -> text_of d ku (Some u) -> text_of d kb b -> text_of d kt t -> text_of d kr r ->
    describes sv name d (SGit name {| g_url := u; g_branch := b; g_tag := t; g_rev := r |}).
Definition unsupported (sv : schema) (d : list (prim * json)) : Prop :=
  text_of d $"url" None /\ text_of d (fst (fst (fst (git_keys sv)))) None.
(** The sources of a list, from the index [i] on; several sources get numbered names. *)
Inductive collected (sv : schema) (name : nat -> str) (path : nat -> str) : nat -> list (list (prim * json)) -> list (str * source) -> Prop :=
| co_nil i : collected sv name path i [] []
| co_yes i d ds s m : describes sv (name i) d s -> collected sv name path (S i) ds m ->
    collected sv name path i (d :: ds) ((path i, s) :: m)
| co_no i d ds m : unsupported sv d -> collected sv name path (S i) ds m -> collected sv name path i (d :: ds) m.
Definition numbered (base : str) (many : bool) (i : nat) : str := if many then base ++ $"_" ++ str_of_nat i else base.
Definition recipe_title (o : option str) : str := match o with Some n => n | None => $"Unknown Recipe" end.
