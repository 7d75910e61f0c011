(** Properties C55 and C69: every outcome of a git fetch; what an HTTP fetcher reports after any calls. *)
From Verif Require Export ServiceSpec.

(** The fetcher with a working copy at a commit. *)
Definition git_now (f : git_fetcher) (commit : str) (fetched : bool) : git_fetcher :=
  {| gf_target := gf_target f; gf_remote := gf_remote f; gf_fetched := fetched; gf_head := Some commit |}.
Inductive git_outcome (clone : clone_result) (f : git_fetcher) : res unit -> git_fetcher -> Prop :=
| go_local : gf_remote f = false -> git_outcome clone f (Err EFetch) f
| go_refused : gf_remote f = true -> clone = CloneGitError \/ clone = CloneIOError -> git_outcome clone f (Err EFetch) f
| go_other e : gf_remote f = true -> clone = CloneOther e -> git_outcome clone f (Err e) f
| go_default repo : gf_remote f = true -> clone = Cloned repo -> (forall name, requested (gf_target f) name -> name = []) ->
    git_outcome clone f (Ok tt) (git_now f (repo_head repo) true)
| go_no_branch repo name : gf_remote f = true -> clone = Cloned repo -> requested (gf_target f) name -> name <> [] ->
    g_branch (gf_target f) = None -> git_outcome clone f (Ok tt) (git_now f (repo_head repo) true)
| go_branch repo name b c : gf_remote f = true -> clone = Cloned repo -> requested (gf_target f) name -> name <> [] ->
    g_branch (gf_target f) = Some b -> repo_commit repo b = Some c -> git_outcome clone f (Ok tt) (git_now f c true)
| go_unknown repo name b : gf_remote f = true -> clone = Cloned repo -> requested (gf_target f) name -> name <> [] ->
    g_branch (gf_target f) = Some b -> repo_commit repo b = None ->
    git_outcome clone f (Err EFetch) (git_now f (repo_head repo) (gf_fetched f)).

(** The file that the fetches of a session left behind. *)
Inductive file_left : list (http_call * reply) -> option str -> Prop :=
| fl_start : file_left [] None
| fl_written h o io r b : file_left h o -> io_file io = Some b -> file_left (h ++ [(HFetch io, r)]) (Some b)
| fl_untouched h o io r : file_left h o -> io_file io = None -> file_left (h ++ [(HFetch io, r)]) o
| fl_other h o c r : file_left h o -> ~ is_fetch_http c -> file_left (h ++ [(c, r)]) o.
(** The kind of the archive that was recognised last. *)
Inductive type_seen : list (http_call * reply) -> archive_type -> Prop :=
| ts_start : type_seen [] UNKNOWN
| ts_tar h t io r : type_seen h t -> io_download io = None -> io_is_tar io = inr true -> type_seen (h ++ [(HFetch io, r)]) TARBALL
| ts_zip h t io r : type_seen h t -> io_download io = None -> io_is_tar io = inr false -> io_is_zip io = inr true ->
    type_seen (h ++ [(HFetch io, r)]) ZIP
| ts_failed h t io r : type_seen h t -> io_download io <> None \/ ~ archive io -> type_seen (h ++ [(HFetch io, r)]) t
| ts_other h t c r : type_seen h t -> ~ is_fetch_http c -> type_seen (h ++ [(c, r)]) t.
