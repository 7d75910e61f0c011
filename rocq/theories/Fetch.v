(** Model of conda_recipe_manager/fetcher: the state of a fetcher, HTTP and git sources, and the retry loop of
    commands/bump_recipe.py. *)
From Verif Require Export Deps.

(** * HTTP archives: fetcher/http_artifact_fetcher.py *)

(** http_artifact_fetcher.py 24-33 [ArtifactArchiveType] *)
Inductive archive_type := ZIP | ZIP_7 | TARBALL | UNKNOWN.
(** What the outside world does during one call of [fetch]: the bytes in the archive file after the download attempt (None:
    the file was not touched), whether the download failed and how, what [is_tarfile] and [is_zipfile] say and whether
    extracting fails. *)
Inductive io_error := RequestError | FileError | ArchiveError | OtherError (e : exn).
Record http_io := {
  io_file : option str;
  io_download : option io_error;
  io_is_tar : io_error + bool;
  io_is_zip : io_error + bool;
  io_extract : option io_error
}.
(** base_artifact_fetcher.py 27-41, http_artifact_fetcher.py 41-62: the state of a fetcher; [h_file] is the archive on
    disk. *)
Record http_fetcher := { h_name : str; h_url : str; h_fetched : bool; h_type : archive_type; h_file : option str }.
Definition new_http (name url : str) : http_fetcher :=
  {| h_name := name; h_url := url; h_fetched := false; h_type := UNKNOWN; h_file := None |}.
Definition with_file (o : option str) (f : http_fetcher) : http_fetcher :=
  {| h_name := h_name f; h_url := h_url f; h_fetched := h_fetched f; h_type := h_type f;
     h_file := match o with Some b => Some b | None => h_file f end |}.
Definition with_type (t : archive_type) (f : http_fetcher) : http_fetcher :=
  {| h_name := h_name f; h_url := h_url f; h_fetched := h_fetched f; h_type := t; h_file := h_file f |}.
Definition with_fetched (f : http_fetcher) : http_fetcher :=
  {| h_name := h_name f; h_url := h_url f; h_fetched := true; h_type := h_type f; h_file := h_file f |}.
(** http_artifact_fetcher.py 85-88 (archive and value errors and file system errors become FetchError) *)
Definition extract_error (e : io_error) : exn := match e with OtherError e => e | RequestError => EOther $"request" | _ => EFetch end.
(** http_artifact_fetcher.py 104-107 (request and file system errors become FetchError) *)
Definition download_error (e : io_error) : exn := match e with OtherError e => e | ArchiveError => EOther $"archive" | _ => EFetch end.
(** http_artifact_fetcher.py 64-88 [_extract] *)
Definition extract_files (io : http_io) (f : http_fetcher) : res unit * http_fetcher :=
  let unpack f := (match io_extract io with None => Ok tt | Some e => Err (extract_error e) end, f) in
  match io_is_tar io with
  | inl e => (Err (extract_error e), f)
  | inr true => unpack (with_type TARBALL f)
  | inr false =>
      match io_is_zip io with
      | inl e => (Err (extract_error e), f)
      | inr true => unpack (with_type ZIP f)
      | inr false => (Err EFetch, f)
      end
  end.
(** http_artifact_fetcher.py 90-112 [fetch] *)
Definition http_fetch (io : http_io) (f : http_fetcher) : res unit * http_fetcher :=
  let f := with_file (io_file io) f in
  match io_download io with
  | Some e => (Err (download_error e), f)
  | None =>
      match extract_files io f with
      | (Ok _, f) => (Ok tt, with_fetched f)
      | (Err e, f) => (Err e, f)
      end
  end.
(** base_artifact_fetcher.py 43-53 [_fetch_guard] *)
Definition fetch_guard (fetched : bool) : res unit := if fetched then Ok tt else Err EFetchRequired.
(** http_artifact_fetcher.py 114-124 [get_path_to_source_code]; the directory itself is not modelled *)
Definition http_source_code (f : http_fetcher) : res unit := fetch_guard (h_fetched f).
(** http_artifact_fetcher.py 126-134 [get_archive_sha256]; [hash_file] fails when there is no file *)
Definition http_sha256 (hash : str -> str) (f : http_fetcher) : res str :=
  let! _ := fetch_guard (h_fetched f) in
  match h_file f with Some b => Ok (hash b) | None => Err (EOther $"FileNotFoundError") end.
(** http_artifact_fetcher.py 136-145 [get_archive_type] *)
Definition http_archive_type (f : http_fetcher) : res archive_type :=
  let! _ := fetch_guard (h_fetched f) in Ok (h_type f).

(** * git repositories: fetcher/git_artifact_fetcher.py *)

(** git_artifact_fetcher.py 18-26 [_GitTarget] *)
Record git_target := { g_url : str; g_branch : option str; g_tag : option str; g_rev : option str }.
(** A repository: the commit that is checked out after cloning and the commit each name stands for. *)
Record repository := { repo_head : str; repo_commit : str -> option str }.
(** What the outside world does during one call of [fetch]: the result of [Repo.clone_from]. *)
Inductive clone_result := Cloned (repo : repository) | CloneGitError | CloneIOError | CloneOther (e : exn).
(** git_artifact_fetcher.py 34-55: the state; [gf_head] is the commit of the working copy, [gf_remote] tells whether the
    url did not exist as a local path. *)
Record git_fetcher := { gf_target : git_target; gf_remote : bool; gf_fetched : bool; gf_head : option str }.
Definition new_git (t : git_target) (remote : bool) : git_fetcher :=
  {| gf_target := t; gf_remote := remote; gf_fetched := false; gf_head := None |}.
Definition with_head (h : str) (fetched : bool) (f : git_fetcher) : git_fetcher :=
  {| gf_target := gf_target f; gf_remote := gf_remote f; gf_fetched := gf_fetched f || fetched; gf_head := Some h |}.
(** git_artifact_fetcher.py 71-88 [_resolve_checkout_target] *)
Definition resolve_checkout_target (t : git_target) : option str :=
  match g_tag t with
  | Some x => Some x
  | None => match g_rev t with
            | Some x => Some x
            | None => match g_branch t with Some x => Some x | None => None end
            end
  end.
(** [repo.git.checkout(x, force=True)]: GitPython drops arguments that are None, and "git checkout --force" without a
    name stays where it is. *)
Definition git_checkout (repo : repository) (x : option str) : option str :=
  match x with None => Some (repo_head repo) | Some name => repo_commit repo name end.
(** git_artifact_fetcher.py 57-69 [_clone], 90-111 [fetch].  Copying a local repository always fails: the destination is the
    temporary directory made by the constructor, and [shutil.copytree] requires that it does not exist. *)
Definition git_fetch (clone : clone_result) (f : git_fetcher) : res unit * git_fetcher :=
  match (if gf_remote f then clone else CloneIOError) with
  | CloneGitError | CloneIOError => (Err EFetch, f)
  | CloneOther e => (Err e, f)
  | Cloned repo =>
      match resolve_checkout_target (gf_target f) with
      | Some (_ :: _) =>
          match git_checkout repo (g_branch (gf_target f)) with
          | None => (Err EFetch, with_head (repo_head repo) false f)
          | Some h => (Ok tt, with_head h true f)
          end
      | _ => (Ok tt, with_head (repo_head repo) true f)
      end
  end.
(** git_artifact_fetcher.py 113-123 [get_path_to_source_code] *)
Definition git_source_code (f : git_fetcher) : res unit := fetch_guard (gf_fetched f).

(** * fetcher/artifact_fetcher.py *)

(** utils/typing.py 12-21 [optional_str]; [parsed_source.get(key)] gives None for a missing key *)
Definition optional_str (j : json) : option str := match j with JNull => None | _ => Some (json_str j) end.
(** artifact_fetcher.py 19-45 [_render_git_key], for the four keys it is called with *)
Inductive git_key := GIT_URL | GIT_BRANCH | GIT_TAG | GIT_REV.
Definition render_git_key (sv : schema) (k : git_key) : str :=
  match sv, k with
  | SV0, GIT_URL => $"git_url" | SV0, GIT_BRANCH => $"git_branch" | SV0, GIT_TAG => $"git_tag" | SV0, GIT_REV => $"git_rev"
  | SV1, GIT_URL => $"git" | SV1, GIT_BRANCH => $"branch" | SV1, GIT_TAG => $"tag" | SV1, GIT_REV => $"rev"
  end.
(** A source found in a recipe: an archive or a repository (the url and the rest of the target). *)
Inductive source := SHttp (name url : str) | SGit (name : str) (target : git_target).
(** recipe_reader.py 918-932 [get_recipe_name] *)
Definition get_recipe_name (E : env) (r : recipe) : res (option str) :=
  let path := if schema_eqb (r_schema r) SV1 && is_multi_output (r_root r) then $"/recipe/name" else $"/package/name" in
  let! v := get_value E (r_root r) path (Some JNull) (sub_vars r) in
  Ok (optional_str v).
(** artifact_fetcher.py 82-103: one source; [parsed_source.get] fails for a value that is not a mapping *)
Definition source_get (d : list (prim * json)) (k : str) : option str :=
  match assoc_prim (PStr k) d with Some v => optional_str v | None => None end.
Definition one_source (sv : schema) (name : str) (parsed : json) : res (option source) :=
  match parsed with
  | JDict d =>
      match source_get d $"url", source_get d (render_git_key sv GIT_URL) with
      | Some url, _ => Ok (Some (SHttp name url))
      | None, Some git_url =>
          Ok (Some (SGit name {| g_url := git_url; g_branch := source_get d (render_git_key sv GIT_BRANCH);
                                 g_tag := source_get d (render_git_key sv GIT_TAG);
                                 g_rev := source_get d (render_git_key sv GIT_REV) |}))
      | None, None => Ok None
      end
  | _ => Err EAttr
  end.
(** artifact_fetcher.py 48-105 [from_recipe] *)
Fixpoint collect_sources (sv : schema) (ignore_unsupported : bool) (recipe_name : str) (is_list many : bool) (i : nat)
    (l : list json) (acc : sdict source) : res (sdict source) :=
  match l with
  | [] => Ok acc
  | x :: l' =>
      let src_name := if many then recipe_name ++ $"_" ++ str_of_nat i else recipe_name in
      let src_path := if is_list then $"/source/" ++ str_of_nat i else $"/source" in
      let! o := one_source sv src_name x in
      match o with
      | Some s => collect_sources sv ignore_unsupported recipe_name is_list many (S i) l' (dset src_path s acc)
      | None => if ignore_unsupported
                then collect_sources sv ignore_unsupported recipe_name is_list many (S i) l' acc
                else Err (EOther $"FetchUnsupportedError")
      end
  end.
Definition from_recipe (E : env) (r : recipe) (ignore_unsupported : bool) : res (sdict source) :=
  let! v := get_value E (r_root r) $"/source" (Some (JList [])) (sub_vars r) in
  let '(l, is_list) := match v with JList l => (l, true) | _ => ([v], false) end in
  let! o := get_recipe_name E r in
  let name := match o with Some n => n | None => $"Unknown Recipe" end in
  collect_sources (r_schema r) ignore_unsupported name is_list (negb (length l =? 1)) 0 l [].

(** * Retries: commands/bump_recipe.py 180-201 [_get_sha256] *)

(** bump_recipe.py 44-45 [_RETRY_LIMIT] *)
Definition RETRY_LIMIT : nat := 5.
(** The loop from attempt [id] on, with [left] attempts left.  [world] tells what happens during each attempt.  The result
    is followed by the state of the fetcher and the waiting times, counted in retry intervals. *)
Fixpoint sha256_attempts (hash : str -> str) (world : nat -> http_io) (id left : nat) (f : http_fetcher)
    : res str * http_fetcher * list nat :=
  match left with
  | 0 => (Err EFetch, f, [])
  | S left' =>
      let '(o, f1) := http_fetch (world id) f in
      match (let! _ := o in http_sha256 hash f1) with
      | Ok sha => (Ok sha, f1, [])
      | Err EFetch => let '(r, f2, w) := sha256_attempts hash world (S id) left' f1 in (r, f2, id :: w)
      | Err e => (Err e, f1, [])
      end
  end.
Definition get_sha256 (hash : str -> str) (world : nat -> http_io) (f : http_fetcher) : res str * http_fetcher * list nat :=
  sha256_attempts hash world 1 RETRY_LIMIT f.
