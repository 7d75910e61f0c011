(** Model of conda_recipe_manager/commands/graph.py and of [RecipeGraph.plot].  What the drawing libraries put on the screen is
    not modelled: a plot is known by the packages it shows.  Timing, memory usage and the wording of messages are not modelled. *)
From Verif Require Export Graph Commands.

(** grapher/types.py 13-20 [GraphType] and 23-31 [GraphDirection] *)
Inductive graph_type := GT_BUILD | GT_TEST.
Definition graph_type_values : list str := [$"build"; $"test"].
Inductive graph_direction := DEPENDS_ON | NEEDED_BY.
(** The outside: [networkx.bfs_tree] (the nodes of the tree it returns), and whether the Python version is at least 3.12. *)
Record graph_lib := { bfs_tree : list edge -> prim -> bool -> res (list prim); python_3_12 : bool }.

(** recipe_graph.py 26-38 [_reverse_flag] *)
Definition reverse_flag (d : graph_direction) : bool := match d with DEPENDS_ON => false | NEEDED_BY => true end.
(** recipe_graph.py 40-51 [_get_graph] *)
Definition get_graph (t : graph_type) (g : graph) : list edge := match t with GT_BUILD => g_build g | GT_TEST => g_test g end.
(** The nodes of a networkx graph that was made by [add_edge] *)
Definition nodes_of (G : list edge) : list prim :=
  fold_left (fun acc x => if pmem_prim x acc then acc else acc ++ [x]) (flat_map (fun e => [fst e; PStr (snd e)]) G) [].
(** recipe_graph.py 136-185 [plot]: the nodes that are drawn *)
Definition plot (L : graph_lib) (t : graph_type) (d : graph_direction) (package : option str) (g : graph) : res (list prim) :=
  let G := get_graph t g in
  match package with
  | None => Ok (nodes_of G)
  | Some p => bfs_tree L G (PStr p) (reverse_flag d)
  end.

(** What the user sees *)
Inductive shown :=
| S_no_recipes
| S_failures (failed recipes failed_deps parsed : nat)
| S_help | S_bad_type (t : str) | S_wait | S_bad_direction | S_not_found (p : str)
| S_plot_all (t : graph_type) (nodes : list prim)
| S_plot (t : graph_type) (d : graph_direction) (p : str) (nodes : list prim)
| S_stats (s : stats) | S_closing | S_invalid.
(** How a command of the menu ends *)
Inductive menu_step := Again | Leave | Crash (e : exn).

(** [x in GraphType]: up to Python 3.11 the question is an error for anything but members; since 3.12 it is about the values *)
Definition in_graph_type (L : graph_lib) (x : str) : res bool :=
  if python_3_12 L then Ok (mem_str x graph_type_values) else Err EType.
(** [GraphType(x)] *)
Definition to_graph_type (x : str) : res graph_type :=
  if str_eqb x $"build" then Ok GT_BUILD else if str_eqb x $"test" then Ok GT_TEST else Err EValue.
(** grapher/types.py 34-54 [PackageStatsEncoder.default]: sets are sorted, which Python refuses for texts beside other values *)
Definition is_text (x : prim) : bool := match x with PStr _ => true | _ => false end.
Definition is_number (x : prim) : bool := match x with PInt _ | PFloat _ | PBool _ => true | _ => false end.
Definition can_be_sorted (l : list prim) : bool := (length l <=? 1) || forallb is_text l || forallb is_number l.

(** commands/graph.py 61-108: one command *)
Definition menu_command (L : graph_lib) (g : graph) (line : str) : list shown * menu_step :=
  match split_ws (lower line) with
  | [w] =>
      if mem_str w [$"help"; $"h"] then ([S_help], Again)
      else if mem_str w [$"stats"; $"statistics"] then
        if can_be_sorted (st_duplicates (g_stats g)) then ([S_stats (g_stats g)], Again) else ([], Crash EType)
      else if mem_str w [$"exit"; $"esc"; $"quit"; $"q"] then ([S_closing], Leave)
      else ([S_invalid], Again)
  | [w; t; x] =>
      if str_eqb w $"plot" && str_eqb x $"all" then
        match in_graph_type L t with
        | Err e => ([], Crash e)
        | Ok false => ([S_bad_type t], Again)
        | Ok true =>
            match to_graph_type t with
            | Err e => ([S_wait], Crash e)
            | Ok gt => match plot L gt DEPENDS_ON None g with
                       | Err e => ([S_wait], Crash e)
                       | Ok nodes => ([S_wait; S_plot_all gt nodes], Again)
                       end
            end
        end
      else ([S_invalid], Again)
  | [w; t; d; p] =>
      if str_eqb w $"plot" then
        match in_graph_type L t with
        | Err e => ([], Crash e)
        | Ok false => ([S_bad_type t], Again)
        | Ok true =>
            match (if str_eqb d $"depends" then Some DEPENDS_ON else if str_eqb d $"needed-by" then Some NEEDED_BY else None) with
            | None => ([S_bad_direction], Again)
            | Some dir =>
                if contains_package_name p g then
                  match to_graph_type t with
                  | Err e => ([], Crash e)
                  | Ok gt => match plot L gt dir (Some p) g with
                             | Err e => ([], Crash e)
                             | Ok nodes => ([S_plot gt dir p nodes], Again)
                             end
                  end
                else ([S_not_found p], Again)
            end
        end
      else ([S_invalid], Again)
  | _ => ([S_invalid], Again)
  end.
(** commands/graph.py 61-110: the menu; [input] raises EOFError when there are no more lines *)
Fixpoint menu (L : graph_lib) (g : graph) (lines : list str) : list shown * finish :=
  match lines with
  | [] => ([], Raise (EOther $"EOFError"))
  | line :: rest =>
      match menu_command L g line with
      | (out, Again) => let '(more, f) := menu L g rest in (out ++ more, f)
      | (out, Leave) => (out, Exit SUCCESS)
      | (out, Crash e) => (out, Raise e)
      end
  end.
(** commands/graph.py 31-58: the graph is made and the failures are counted, as shares of numbers that must not be 0 *)
Definition graph_command (L : graph_lib) (cache : sdict recipe_deps) (failed : list str) (lines : list str) : list shown * finish :=
  let g := new_graph cache failed in
  let s := g_stats g in
  if negb (graph_bool cache) then ([S_no_recipes], Exit CLICK_USAGE)
  else if (st_recipes s =? 0) || (st_parsed s =? 0) then ([], Raise (EOther $"ZeroDivisionError"))
  else let '(out, f) := menu L g lines in
       (S_failures (length (st_failed s)) (st_recipes s) (length (st_failed_deps s)) (st_parsed s) :: out, f).
