(** Model of conda_recipe_manager/grapher (without drawing). *)
From Verif Require Export Deps.

(** Graphs of the networkx package are known by their edges; [add_edge] ignores an edge that is already there. *)
Definition edge := (prim * str)%type.
Definition edge_eqb (a b : edge) : bool := prim_eqb (fst a) (fst b) && str_eqb (snd a) (snd b).
Definition add_edge (e : edge) (g : list edge) : list edge := if existsb (edge_eqb e) g then g else g ++ [e].
(** grapher/types.py 57-74 [PackageStats].  Sets are lists without repetition. *)
Record stats := {
  st_duplicates : list prim;
  st_failed : list str;
  st_failed_deps : sdict (list prim);
  st_parsed : nat;
  st_recipes : nat;
  st_packages : nat
}.
(** grapher/recipe_graph.py: the state of the graph *)
Record graph := { g_stats : stats; g_names : list (prim * str); g_build : list edge; g_test : list edge }.
Definition pmem_prim (x : prim) (l : list prim) : bool := existsb (prim_eqb x) l.
(** recipe_graph.py 100-109: one dependency of a package *)
Definition add_dep_edge (package : prim) (g : graph) (d : dependency) : graph :=
  let e := (package, data_name (d_data d)) in
  match d_type d with
  | BUILD | HOST => {| g_stats := g_stats g; g_names := g_names g; g_build := add_edge e (g_build g); g_test := g_test g |}
  | RUN | TESTS => {| g_stats := g_stats g; g_names := g_names g; g_build := g_build g; g_test := add_edge e (g_test g) |}
  | _ => g
  end.
(** recipe_graph.py 94-109: one package of a recipe *)
Definition add_duplicate (x : prim) (s : stats) : stats :=
  {| st_duplicates := if pmem_prim x (st_duplicates s) then st_duplicates s else st_duplicates s ++ [x];
     st_failed := st_failed s; st_failed_deps := st_failed_deps s; st_parsed := st_parsed s; st_recipes := st_recipes s;
     st_packages := st_packages s |}.
Definition count_package (s : stats) : stats :=
  {| st_duplicates := st_duplicates s; st_failed := st_failed s; st_failed_deps := st_failed_deps s; st_parsed := st_parsed s;
     st_recipes := st_recipes s; st_packages := S (st_packages s) |}.
Definition add_package (sha : str) (g : graph) (kv : prim * list dependency) : graph :=
  match assoc_prim (fst kv) (g_names g) with
  | Some _ => {| g_stats := add_duplicate (fst kv) (g_stats g); g_names := g_names g; g_build := g_build g; g_test := g_test g |}
  | None =>
      fold_left (add_dep_edge (fst kv)) (snd kv)
        {| g_stats := count_package (g_stats g); g_names := g_names g ++ [(fst kv, sha)]; g_build := g_build g;
           g_test := g_test g |}
  end.
(** recipe_graph.py 84-92: the names of a recipe whose dependencies cannot be read *)
Definition add_failure (sha : str) (names : res (list (prim * str))) (g : graph) : graph :=
  let l := match names with Ok tbl => map fst tbl | Err _ => [PStr $"Unknown"] end in
  let s := g_stats g in
  {| g_stats := {| st_duplicates := st_duplicates s; st_failed := st_failed s;
                   st_failed_deps := dset sha l (st_failed_deps s);
                   st_parsed := st_parsed s; st_recipes := st_recipes s; st_packages := st_packages s |};
     g_names := g_names g; g_build := g_build g; g_test := g_test g |}.
(** recipe_graph.py 80-109: one recipe.  [deps] and [names] are what [get_all_dependencies] and
    [get_package_names_to_path] give. *)
Record recipe_deps := { rd_deps : res dep_map; rd_names : res (list (prim * str)) }.
Definition add_recipe (g : graph) (kv : str * recipe_deps) : graph :=
  match rd_deps (snd kv) with
  | Err _ => add_failure (fst kv) (rd_names (snd kv)) g
  | Ok m => fold_left (add_package (fst kv)) m g
  end.
(** recipe_graph.py 53-109 [__init__]; [failed] is a set of texts *)
Definition new_graph (cache : sdict recipe_deps) (failed : list str) : graph :=
  fold_left add_recipe cache
    {| g_stats := {| st_duplicates := []; st_failed := failed; st_failed_deps := []; st_parsed := length cache;
                     st_recipes := length cache + length failed; st_packages := 0 |};
       g_names := []; g_build := []; g_test := [] |}.
(** recipe_graph.py 111-117 [__bool__] *)
Definition graph_bool (cache : sdict recipe_deps) : bool := negb (is_nil cache).
(** recipe_graph.py 119-126 [contains_package_name] *)
Definition contains_package_name (package : str) (g : graph) : bool :=
  match assoc_prim (PStr package) (g_names g) with Some _ => true | None => false end.
(** The cache entry of a parsed recipe *)
Definition deps_of_recipe (E : env) (MS : match_spec) (r : recipe) : recipe_deps :=
  {| rd_deps := get_all_dependencies E MS r; rd_names := get_package_names_to_path E r |}.

(** * grapher/recipe_graph_from_disk.py *)

(** recipe_graph_from_disk.py 22-34 [_read_and_parse_recipe]; the content is None when the file cannot be read *)
Record recipe_file := { rf_path : str; rf_content : option str }.
Definition read_and_parse (E : env) (hash : str -> str) (f : recipe_file) : str * option recipe :=
  match rf_content f with
  | None => (rf_path f, None)
  | Some text => match new_recipe E text with
                 | Ok r => (calc_sha256 hash E r, Some r)
                 | Err _ => (rf_path f, None)
                 end
  end.
(** recipe_graph_from_disk.py 36-63 [__init__]: the results become a cache and a set of failed paths *)
Definition sort_result (E : env) (MS : match_spec) (acc : sdict recipe_deps * list str) (x : str * option recipe)
    : sdict recipe_deps * list str :=
  match snd x with
  | None => (fst acc, if mem_str (fst x) (snd acc) then snd acc else snd acc ++ [fst x])
  | Some r => (dset (fst x) (deps_of_recipe E MS r) (fst acc), snd acc)
  end.
Definition graph_from_disk (E : env) (MS : match_spec) (hash : str -> str) (files : list recipe_file) : graph :=
  let '(cache, failed) := fold_left (sort_result E MS) (map (read_and_parse E hash) files) ([], []) in
  new_graph cache failed.
