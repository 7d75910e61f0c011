(** The interactive menu of the graph command: what each line of the user is answered with (C102, C103).  Independent of the
    functions of the model. *)
From Verif Require Export SelectorSpec GraphCmd GraphSpec.
From Coq Require Export Relations.

(** The words of a line, in small letters. *)
Definition spelled (line : str) (ws : list str) : Prop := words_of (lower line) ws.
Definition type_named (t : str) (gt : graph_type) : Prop := (t = $"build" /\ gt = GT_BUILD) \/ (t = $"test" /\ gt = GT_TEST).
Definition direction_named (d : str) (dir : graph_direction) : Prop := (d = $"depends" /\ dir = DEPENDS_ON) \/ (d = $"needed-by" /\ dir = NEEDED_BY).
Definition of_type (gt : graph_type) : dep_section -> Prop := match gt with GT_BUILD => build_section | GT_TEST => test_section end.

(** [x] needs [y]: the recipe that defines [x] lists [y] in such a section. *)
Definition needs (cache : sdict recipe_deps) (gt : graph_type) (x y : prim) : Prop :=
  exists d t, first_definition cache d /\ def_name d = x /\ y = PStr t /\ lists_dep (of_type gt) (def_deps d) t.
Definition toward (cache : sdict recipe_deps) (gt : graph_type) (dir : graph_direction) : prim -> prim -> Prop :=
  match dir with DEPENDS_ON => needs cache gt | NEEDED_BY => fun x y => needs cache gt y x end.
(** A package that needs something or is needed. *)
Definition connected (cache : sdict recipe_deps) (gt : graph_type) (x : prim) : Prop :=
  exists y, needs cache gt x y \/ needs cache gt y x.
Definition known (cache : sdict recipe_deps) (p : str) : Prop := exists d, In d (definitions cache) /\ def_name d = PStr p.

Definition quits (line : str) : Prop := exists w, spelled line [w] /\ In w [$"exit"; $"esc"; $"quit"; $"q"].
(** The statistics of the recipes. *)
Definition stats_of (cache : sdict recipe_deps) (failed : list str) (s : stats) : Prop :=
  st_failed s = failed /\ st_parsed s = length cache /\ st_recipes s = length cache + length failed
  /\ (forall sha, In sha (dkeys (st_failed_deps s)) <-> unreadable_deps cache sha)
  /\ (forall n, (exists x, In x (st_duplicates s) /\ same_name x n) <-> defined_twice cache n)
  /\ exists names, distinct_names names /\ (forall n, In n names <-> exists d, first_definition cache d /\ def_name d = n) /\ st_packages s = length names.
(** The forms of the commands. *)
Inductive form : list str -> Prop :=
| form_word w : In w [$"help"; $"h"; $"stats"; $"statistics"; $"exit"; $"esc"; $"quit"; $"q"] -> form [w]
| form_all t : form [$"plot"; t; $"all"]
| form_plot t d p : form [$"plot"; t; d; p].
Inductive reply (cache : sdict recipe_deps) (failed : list str) (line : str) : list shown -> Prop :=
| reply_help w : spelled line [w] -> In w [$"help"; $"h"] -> reply cache failed line [S_help]
| reply_stats w s : spelled line [w] -> In w [$"stats"; $"statistics"] -> stats_of cache failed s -> reply cache failed line [S_stats s]
| reply_quit : quits line -> reply cache failed line [S_closing]
| reply_all t gt nodes : spelled line [$"plot"; t; $"all"] -> type_named t gt ->
    (forall x, (exists y, In y nodes /\ same_name y x) <-> exists y, connected cache gt y /\ same_name y x) -> reply cache failed line [S_wait; S_plot_all gt nodes]
| reply_plot t gt d dir p nodes : spelled line [$"plot"; t; d; p] -> type_named t gt -> direction_named d dir -> known cache p ->
    (forall x, In x nodes <-> clos_refl_trans _ (toward cache gt dir) (PStr p) x) -> reply cache failed line [S_plot gt dir p nodes]
| reply_not_found t gt d dir p : spelled line [$"plot"; t; d; p] -> type_named t gt -> direction_named d dir -> ~ known cache p ->
    reply cache failed line [S_not_found p]
| reply_bad_type t rest : spelled line ($"plot" :: t :: rest) -> rest = [$"all"] \/ length rest = 2 -> (forall gt, ~ type_named t gt) ->
    reply cache failed line [S_bad_type t]
| reply_bad_direction t gt d p : spelled line [$"plot"; t; d; p] -> type_named t gt -> (forall dir, ~ direction_named d dir) ->
    reply cache failed line [S_bad_direction]
| reply_invalid ws : spelled line ws -> ~ form ws -> reply cache failed line [S_invalid].

(** What is assumed about networkx: [bfs_tree] finds what can be reached, and refuses a start that is no node. *)
Definition edges_to (G : list edge) (reverse : bool) (x y : prim) : Prop :=
  if reverse then exists t, x = PStr t /\ In (y, t) G else exists t, y = PStr t /\ In (x, t) G.
Definition is_node (G : list edge) (x : prim) : Prop := exists y, edges_to G false x y \/ edges_to G false y x.
Definition searches (L : graph_lib) : Prop := forall G p reverse,
  (is_node G (PStr p) -> exists nodes, bfs_tree L G (PStr p) reverse = Ok nodes
     /\ forall x, In x nodes <-> clos_refl_trans _ (edges_to G reverse) (PStr p) x)
  /\ (~ is_node G (PStr p) -> exists e, bfs_tree L G (PStr p) reverse = Err e).
(** The stats can be printed: the names defined twice are all texts. *)
Definition text_duplicates (cache : sdict recipe_deps) : Prop := forall x, defined_twice cache x -> exists p, x = PStr p.
(** Values that Python puts in order: two texts, or two numbers. *)
Definition a_number (x : prim) : Prop := (exists b, x = PBool b) \/ (exists z, x = PInt z) \/ (exists r, x = PFloat r).
Definition ordered_kinds (x y : prim) : Prop := (exists s t, x = PStr s /\ y = PStr t) \/ (a_number x /\ a_number y).
(** Different names that are defined twice can be put in order. *)
Definition orderly_duplicates (cache : sdict recipe_deps) : Prop :=
  forall x y, defined_twice cache x -> defined_twice cache y -> same_name x y \/ ordered_kinds x y.
(** A line that asks for the plot of a package that the recipes define but that no dependency of that kind connects with anything. *)
Definition stumbles (cache : sdict recipe_deps) (line : str) : Prop := exists t gt d dir p,
  spelled line [$"plot"; t; d; p] /\ type_named t gt /\ direction_named d dir /\ known cache p /\ ~ connected cache gt (PStr p).
(** A session: every line is answered, up to the one that quits. *)
Inductive session (cache : sdict recipe_deps) (failed : list str) : list str -> list shown -> finish -> Prop :=
| session_no_more_lines : session cache failed [] [] (Raise (EOther $"EOFError"))
| session_quit line rest : quits line -> session cache failed (line :: rest) [S_closing] (Exit SUCCESS)
| session_stumble line rest e : stumbles cache line -> session cache failed (line :: rest) [] (Raise e)
| session_reply line rest out more f : ~ quits line -> ~ stumbles cache line -> reply cache failed line out -> session cache failed rest more f ->
    session cache failed (line :: rest) (out ++ more) f.
