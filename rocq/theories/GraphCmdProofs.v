(** Proofs for C102 and C103. *)
From Verif Require Import Lemmas SelectorProofs PatchProofs GraphProofs GraphCmdSpec.

(** * A search that finds what can be reached (for the examples, and to show that [searches] can be met) *)
Definition step_from (G : list edge) (reverse : bool) (x : prim) : list prim :=
  if reverse then map fst (filter (fun e => if prim_dec (PStr (snd e)) x then true else false) G)
  else map (fun e => PStr (snd e)) (filter (fun e => if prim_dec (fst e) x then true else false) G).
Fixpoint explore (fuel : nat) (G : list edge) (reverse : bool) (done queue : list prim) : list prim :=
  match fuel, queue with
  | S f, x :: q =>
      let seen := done ++ x :: q in
      let new := nodup prim_dec (filter (fun y => if in_dec prim_dec y seen then false else true) (step_from G reverse x)) in
      explore f G reverse (done ++ [x]) (q ++ new)
  | _, _ => done
  end.
Definition ends_of (G : list edge) : list prim := flat_map (fun e => [fst e; PStr (snd e)]) G.
Definition simple_search (G : list edge) (x : prim) (reverse : bool) : res (list prim) :=
  if in_dec prim_dec x (ends_of G) then Ok (explore (S (S (length (ends_of G)))) G reverse [] [x]) else Err (EOther $"NetworkXError").
Lemma step_from_in G reverse x y : In y (step_from G reverse x) <-> edges_to G reverse x y.
Proof.
  unfold step_from, edges_to. destruct reverse; rewrite in_map_iff.
  - split.
    + intros ((a & t) & <- & H). apply filter_In in H as (H & K). cbn [fst snd] in *. destruct (prim_dec (PStr t) x); [|discriminate]. exists t. auto.
    + intros (t & -> & H). exists (y, t). split; auto. apply filter_In. split; auto. cbn [snd]. destruct (prim_dec (PStr t) (PStr t)); auto.
  - split.
    + intros ((a & t) & <- & H). apply filter_In in H as (H & K). cbn [fst snd] in *. destruct (prim_dec a x) as [->|]; [|discriminate]. exists t. auto.
    + intros (t & -> & H). exists (x, t). split; auto. apply filter_In. split; auto. cbn [fst]. destruct (prim_dec x x); auto.
Qed.
Lemma ends_edges G reverse x y : edges_to G reverse x y -> In x (ends_of G) /\ In y (ends_of G).
Proof.
  unfold edges_to, ends_of. destruct reverse; intros (t & -> & H); split; apply in_flat_map; eexists; (split; [exact H|]); cbn [fst snd In]; auto.
Qed.
Lemma ends_node G x : In x (ends_of G) <-> is_node G x.
Proof.
  split.
  - intros H. apply in_flat_map in H as ((a & t) & H & [<-|[<-|[]]]); cbn [fst snd] in *.
    + exists (PStr t). left. exists t. auto.
    + exists a. right. exists t. auto.
  - intros (y & [H|H]); apply ends_edges in H; tauto.
Qed.
Lemma nodup_append {A} (a b : list A) : NoDup a -> NoDup b -> (forall x, In x a -> ~ In x b) -> NoDup (a ++ b).
Proof.
  induction 1 as [|x a H1 H2 IH]; intros HB HD; cbn [app]; auto. constructor.
  - rewrite in_app_iff. intros [K|K]; [contradiction|]. apply (HD x (or_introl eq_refl) K).
  - apply IH; auto. intros y Hy. apply HD. right. exact Hy.
Qed.
Lemma nodup_first {A} (a b : list A) : NoDup (a ++ b) -> NoDup a.
Proof.
  induction a as [|x a IH]; cbn [app]; intros H; [constructor|]. inversion H as [|? ? H1 H2]; subst. constructor; auto.
  intros K. apply H1, in_or_app. left. exact K.
Qed.
Lemma explore_spec G reverse start : forall fuel done queue,
  NoDup (done ++ queue) -> (forall y, In y (done ++ queue) -> In y (ends_of G)) -> length (ends_of G) < length done + fuel ->
  In start (done ++ queue) ->
  (forall y, In y (done ++ queue) -> clos_refl_trans _ (edges_to G reverse) start y) ->
  (forall x y, In x done -> edges_to G reverse x y -> In y (done ++ queue)) ->
  forall y, In y (explore fuel G reverse done queue) <-> clos_refl_trans _ (edges_to G reverse) start y.
Proof.
  induction fuel as [|fuel IH]; intros done queue ND HU HF HS HR HC.
  - exfalso. assert (NoDup done) as ND' by (exact (nodup_first _ _ ND)).
    assert (length done <= length (ends_of G)); [|lia]. apply NoDup_incl_length; auto. intros y Hy. apply HU, in_or_app. auto.
  - destruct queue as [|x q]; cbn [explore].
    + rewrite app_nil_r in *. intros y. split; [apply HR|]. intros H. apply clos_rt_rt1n in H.
      revert HS. clear - HC H. induction H as [|a b c H1 H2 IH2]; intros HS; [exact HS|]. apply IH2. exact (HC _ _ HS H1).
    + cbv zeta. set (new := nodup prim_dec _).
      assert (forall y, In y new <-> edges_to G reverse x y /\ ~ In y (done ++ x :: q)) as HN.
      { intros y. unfold new. rewrite nodup_In, filter_In, step_from_in. destruct (in_dec prim_dec y (done ++ x :: q)); split; intros (A & B); split; auto; congruence. }
      assert ((done ++ [x]) ++ q ++ new = (done ++ x :: q) ++ new) as HE by (rewrite <- !app_assoc; reflexivity).
      assert (In x (done ++ x :: q)) as Hx by (apply in_or_app; right; left; reflexivity).
      apply IH; rewrite ?HE.
      * apply nodup_append; auto; [apply NoDup_nodup|]. intros y Hy K. apply HN in K. tauto.
      * intros y Hy. apply in_app_iff in Hy as [Hy|Hy]; [apply HU, Hy|]. apply HN in Hy as (Hy & _). apply ends_edges in Hy. tauto.
      * rewrite app_length. cbn [length]. lia.
      * apply in_or_app. left. exact HS.
      * intros y Hy. apply in_app_iff in Hy as [Hy|Hy]; [apply HR, Hy|]. apply HN in Hy as (Hy & _). eapply rt_trans; [apply HR, Hx|]. apply rt_step, Hy.
      * intros a b Ha Hb. apply in_app_iff in Ha as [Ha|[<-|[]]]; [apply in_or_app; left; eapply HC; eauto|].
        destruct (in_dec prim_dec b (done ++ x :: q)) as [K|K]; apply in_or_app; [left; exact K|right; apply HN; auto].
Qed.
Definition simple_lib : graph_lib := {| bfs_tree := simple_search; python_3_12 := true |}.
Lemma simple_searches : searches simple_lib.
Proof.
  intros G p reverse. split; intros H; cbn [bfs_tree simple_lib]; unfold simple_search.
  - apply ends_node in H. destruct (in_dec prim_dec (PStr p) (ends_of G)) as [_|K]; [|contradiction]. eexists. split; [reflexivity|].
    apply explore_spec; cbn [app length].
    + constructor; [intros []|constructor].
    + intros y [<-|[]]. exact H.
    + lia.
    + left. reflexivity.
    + intros y [<-|[]]. apply rt_refl.
    + intros x y [].
  - destruct (in_dec prim_dec (PStr p) (ends_of G)) as [K|_]; [apply ends_node in K; contradiction|]. eexists. reflexivity.
Qed.

(** * The graph of the recipes *)
Section Recipes.
Variables (cache : sdict recipe_deps) (failed : list str).
Let G := new_graph cache failed.
Lemma graph_edges gt x t : In (x, t) (get_graph gt G) <-> needs cache gt x (PStr t).
Proof.
  unfold needs. destruct gt; cbn [get_graph of_type]; unfold G; rewrite ?c52_build, ?c52_test; split.
  1, 3: intros (d & A & B & C); exists d, t; auto.
  all: intros (d & t' & A & B & C & D); injection C as <-; exists d; auto.
Qed.
Lemma needs_text gt x y : needs cache gt x y -> exists t, y = PStr t.
Proof. intros (d & t & _ & _ & -> & _). exists t. reflexivity. Qed.
Lemma edges_needs gt x y : edges_to (get_graph gt G) false x y <-> needs cache gt x y.
Proof.
  unfold edges_to. split.
  - intros (t & -> & H). apply graph_edges, H.
  - intros H. destruct (needs_text _ _ _ H) as (t & ->). exists t. split; [reflexivity|]. apply graph_edges, H.
Qed.
Lemma edges_toward gt dir x y : edges_to (get_graph gt G) (reverse_flag dir) x y <-> toward cache gt dir x y.
Proof.
  destruct dir; cbn [reverse_flag toward]; [apply edges_needs|]. unfold edges_to. split.
  - intros (t & -> & H). apply graph_edges, H.
  - intros H. destruct (needs_text _ _ _ H) as (t & ->). exists t. split; [reflexivity|]. apply graph_edges, H.
Qed.
Lemma node_connected gt x : is_node (get_graph gt G) x <-> connected cache gt x.
Proof. unfold is_node, connected. split; intros (y & H); exists y; rewrite ?edges_needs in *; auto. Qed.
Lemma connected_dec gt p : {connected cache gt p} + {~ connected cache gt p}.
Proof.
  destruct (in_dec prim_dec p (ends_of (get_graph gt G))) as [K|K]; [left|right]; rewrite <- node_connected, <- ends_node; exact K.
Qed.
Lemma path_toward gt dir x y : clos_refl_trans _ (edges_to (get_graph gt G) (reverse_flag dir)) x y <-> clos_refl_trans _ (toward cache gt dir) x y.
Proof.
  split; intros H; apply clos_rt_rt1n in H; apply clos_rt1n_rt; induction H as [|a b c H1 H2 IH]; try constructor 1; econstructor 2; eauto; apply edges_toward; exact H1.
Qed.
Lemma pmem_same x l : pmem_prim x l = true <-> exists y, In y l /\ same_name y x.
Proof.
  unfold pmem_prim, same_name. rewrite existsb_exists. split; intros (y & A & B); exists y; (split; [exact A|]); rewrite prim_eqb_sym; exact B.
Qed.
Lemma nodes_fold l : forall acc x,
  (exists y, In y (fold_left (fun acc x => if pmem_prim x acc then acc else acc ++ [x]) l acc) /\ same_name y x) <-> exists y, In y (acc ++ l) /\ same_name y x.
Proof.
  induction l as [|a l IH]; intros acc x; cbn [fold_left]; [rewrite app_nil_r; reflexivity|]. rewrite IH. destruct (pmem_prim a acc) eqn:P.
  - apply pmem_same in P as (b & B1 & B2). split; intros (y & A & B).
    + exists y. split; [|exact B]. apply in_app_iff in A. apply in_or_app. cbn [In]. tauto.
    + apply in_app_iff in A as [A|[<-|A]]; [exists y; split; [apply in_or_app; auto|exact B]| |exists y; split; [apply in_or_app; auto|exact B]].
      exists b. split; [apply in_or_app; auto|]. eapply name_trans; [exact B2|exact B].
  - rewrite <- app_assoc. cbn [app]. reflexivity.
Qed.
Lemma nodes_connected gt x : (exists y, In y (nodes_of (get_graph gt G)) /\ same_name y x) <-> exists y, connected cache gt y /\ same_name y x.
Proof.
  unfold nodes_of. rewrite nodes_fold. cbn [app]. fold (ends_of (get_graph gt G)).
  split; intros (y & A & B); exists y; (split; [|exact B]); [apply node_connected, ends_node, A|apply ends_node, node_connected, A].
Qed.
Lemma graph_stats_of : NoDup (map fst cache) -> stats_of cache failed (g_stats G).
Proof.
  intros N. destruct (new_graph_stats cache failed N) as (A & B & C & D & E0). unfold stats_of. fold G in A, B, C, D, E0.
  split; [exact A|]. split; [exact B|]. split; [exact C|]. split; [exact E0|]. split; [intros n; exact (c52_duplicates cache failed n)|].
  exists (map fst (g_names G)). split; [exact (c52_once cache failed)|]. split.
  - intros n. rewrite in_map_iff. split.
    + intros ((n' & sha) & <- & H). apply c52_owners in H as (d & H1 & H2 & H3). exists d. auto.
    + intros (d & H1 & H2). exists (n, def_recipe d). split; [reflexivity|]. apply c52_owners. exists d. auto.
  - rewrite map_length. exact (c53_packages cache failed).
Qed.
Lemma stats_sorted : text_duplicates cache -> can_be_sorted (st_duplicates (g_stats G)) = true.
Proof.
  intros T. unfold can_be_sorted. replace (forallb is_text (st_duplicates (g_stats G))) with true; [rewrite orb_true_r; reflexivity|].
  symmetry. apply forallb_forall. intros x H. destruct (T x) as (p & ->); [|reflexivity].
  apply (c52_duplicates cache failed x). exists x. split; [exact H|]. apply name_refl.
Qed.

(** * The menu *)
Variable L : graph_lib.
Hypothesis HL : searches L.
Hypothesis HP : python_3_12 L = true.
Hypothesis HN : NoDup (map fst cache).
Hypothesis HT : text_duplicates cache.
Lemma spelled_words line : spelled line (split_ws (lower line)).
Proof. apply words_of_split. Qed.
Lemma spelled_is line ws : spelled line ws -> split_ws (lower line) = ws.
Proof. apply split_words. Qed.
Definition answered (line : str) (r : list shown * menu_step) : Prop :=
  match r with
  | (out, Again) => ~ quits line /\ ~ stumbles cache line /\ reply cache failed line out
  | (out, Leave) => quits line /\ out = [S_closing]
  | (out, Crash e) => stumbles cache line /\ out = []
  end.
Lemma named_build t gt : type_named t gt -> to_graph_type t = Ok gt /\ mem_str t graph_type_values = true.
Proof. intros [(-> & ->)|(-> & ->)]; split; reflexivity. Qed.
Lemma type_cases t : (exists gt, type_named t gt) \/ (mem_str t graph_type_values = false /\ forall gt, ~ type_named t gt).
Proof.
  destruct (mem_str t graph_type_values) eqn:M.
  - left. apply mem_str_In in M as [<-|[<-|[]]]; [exists GT_BUILD|exists GT_TEST]; unfold type_named; auto.
  - right. split; [reflexivity|]. intros gt H. apply named_build in H as (_ & H). congruence.
Qed.
Lemma direction_cases d : match (if str_eqb d $"depends" then Some DEPENDS_ON else if str_eqb d $"needed-by" then Some NEEDED_BY else None) with
  | Some dir => direction_named d dir | None => forall dir, ~ direction_named d dir end.
Proof.
  unfold direction_named. destruct (str_eqb d $"depends") eqn:A; [apply str_eqb_eq in A; auto|]. destruct (str_eqb d $"needed-by") eqn:B; [apply str_eqb_eq in B; auto|].
  intros dir [(-> & _)|(-> & _)]; [rewrite str_eqb_refl in A|rewrite str_eqb_refl in B]; discriminate.
Qed.
Lemma command_answered line : answered line (menu_command L G line).
Proof.
  unfold menu_command. pose proof (spelled_words line) as S. set (ws := split_ws (lower line)) in *.
  assert (HQ : quits line -> exists w, ws = [w] /\ In w [$"exit"; $"esc"; $"quit"; $"q"]).
  { intros (w & A & B). exists w. split; [exact (spelled_is _ _ A)|exact B]. }
  assert (HS : stumbles cache line -> exists t gt d dir p, ws = [$"plot"; t; d; p] /\ type_named t gt /\ direction_named d dir /\ known cache p /\ ~ connected cache gt (PStr p)).
  { intros (t & gt & d & dir & p & A & B). exists t, gt, d, dir, p. split; [exact (spelled_is _ _ A)|exact B]. }
  clearbody ws.
  assert (HI : ~ form ws -> answered line ([S_invalid], Again)).
  { intros F. split; [|split].
    - intros H. apply HQ in H as (w & -> & H). apply F, form_word. cbn [In] in *. tauto.
    - intros H. apply HS in H as (t & gt & d & dir & p & -> & _). apply F, form_plot.
    - eapply reply_invalid; eauto. }
  destruct ws as [|w [|t [|x [|p [|]]]]].
  - apply HI. intros F. inversion F.
  - destruct (mem_str w [$"help"; $"h"]) eqn:M1; [|destruct (mem_str w [$"stats"; $"statistics"]) eqn:M2; [|destruct (mem_str w [$"exit"; $"esc"; $"quit"; $"q"]) eqn:M3]].
    + apply mem_str_In in M1. split; [|split].
      * intros H. apply HQ in H as (w' & H & K). injection H as <-. destruct M1 as [<-|[<-|[]]]; destruct K as [K|[K|[K|[K|[]]]]]; discriminate K.
      * intros H. apply HS in H as (? & ? & ? & ? & ? & H & _). discriminate H.
      * eapply reply_help; eauto.
    + rewrite (stats_sorted HT). apply mem_str_In in M2. split; [|split].
      * intros H. apply HQ in H as (w' & H & K). injection H as <-. destruct M2 as [<-|[<-|[]]]; destruct K as [K|[K|[K|[K|[]]]]]; discriminate K.
      * intros H. apply HS in H as (? & ? & ? & ? & ? & H & _). discriminate H.
      * eapply reply_stats; eauto. apply graph_stats_of, HN.
    + apply mem_str_In in M3. split; [|reflexivity]. exists w. split; [exact S|exact M3].
    + apply HI. intros F. inversion F as [w' K E0| |]. apply mem_str_notIn in M1, M2, M3. cbn [In] in *. tauto.
  - apply HI. intros F. inversion F.
  - destruct (str_eqb w $"plot" && str_eqb x $"all") eqn:W.
    + apply andb_prop in W as (W & X). apply str_eqb_eq in W, X. subst w x.
      assert (~ quits line) as NQ by (intros H; apply HQ in H as (? & H & _); discriminate H).
      assert (~ stumbles cache line) as NS by (intros H; apply HS in H as (? & ? & ? & ? & ? & H & _); discriminate H).
      unfold in_graph_type. rewrite HP. destruct (type_cases t) as [(gt & T)|(M & T)].
      * destruct (named_build _ _ T) as (T1 & ->). rewrite T1. cbn [plot]. split; [exact NQ|]. split; [exact NS|]. eapply reply_all; eauto. apply nodes_connected.
      * rewrite M. split; [exact NQ|]. split; [exact NS|]. eapply reply_bad_type; eauto.
    + apply HI. intros F. inversion F; subst. rewrite !str_eqb_refl in W. discriminate W.
  - destruct (str_eqb w $"plot") eqn:W.
    + apply str_eqb_eq in W. subst w.
      assert (~ quits line) as NQ by (intros H; apply HQ in H as (? & H & _); discriminate H).
      unfold in_graph_type. rewrite HP. destruct (type_cases t) as [(gt & T)|(M & T)].
      * destruct (named_build _ _ T) as (T1 & ->). pose proof (direction_cases x) as D.
        destruct (if str_eqb x $"depends" then Some DEPENDS_ON else if str_eqb x $"needed-by" then Some NEEDED_BY else None) as [dir|].
        -- assert (contains_package_name p G = true <-> known cache p) as C by exact (c52_contains cache failed p).
           destruct (contains_package_name p G).
           ++ rewrite T1. unfold plot. destruct (HL (get_graph gt G) p (reverse_flag dir)) as (H1 & H2). destruct (connected_dec gt (PStr p)) as [K|K].
              ** destruct (H1 (proj2 (node_connected _ _) K)) as (nodes & -> & HN'). split; [exact NQ|]. split.
                 --- intros H. apply HS in H as (t' & gt' & d' & dir' & p' & H & T' & _ & _ & K'). injection H as -> _ ->.
                     apply named_build in T' as (T' & _). rewrite T1 in T'. injection T' as ->. contradiction.
                 --- eapply reply_plot; eauto; [apply C; reflexivity|]. intros y. rewrite HN'. apply path_toward.
              ** destruct H2 as (e & ->); [rewrite node_connected; exact K|]. split; [|reflexivity].
                 exists t, gt, x, dir, p. split; [exact S|]. split; [exact T|]. split; [exact D|]. split; [apply C; reflexivity|exact K].
           ++ split; [exact NQ|]. assert (~ known cache p) as NK by (intros K; apply C in K; discriminate K). split.
              ** intros H. apply HS in H as (t' & gt' & d' & dir' & p' & H & _ & _ & K' & _). injection H as -> _ ->. contradiction.
              ** eapply reply_not_found; eauto.
        -- split; [exact NQ|]. split.
           ++ intros H. apply HS in H as (t' & gt' & d' & dir' & p' & H & _ & D' & _). injection H as _ -> _. exact (D _ D').
           ++ eapply reply_bad_direction; eauto.
      * rewrite M. split; [exact NQ|]. split.
        -- intros H. apply HS in H as (t' & gt' & d' & dir' & p' & H & T' & _). injection H as -> _ _. exact (T _ T').
        -- eapply reply_bad_type; eauto.
    + apply HI. intros F. inversion F; subst. rewrite str_eqb_refl in W. discriminate W.
  - apply HI. intros F. inversion F.
Qed.
Lemma menu_session : forall lines, session cache failed lines (fst (menu L G lines)) (snd (menu L G lines)).
Proof.
  induction lines as [|line rest IH]; cbn [menu]; [constructor|]. pose proof (command_answered line) as A.
  destruct (menu_command L G line) as (out & [| |e]); cbn [answered] in A.
  - destruct (menu L G rest) as (more & f). cbn [fst snd] in *. destruct A as (A & B & C). constructor; auto.
  - destruct A as (A & ->). constructor; auto.
  - destruct A as (A & ->). constructor; auto.
Qed.
Lemma command_session lines : cache <> [] -> exists out f failures, graph_command L cache failed lines =
  (S_failures (length failed) (length cache + length failed) failures (length cache) :: out, f)
  /\ session cache failed lines out f /\ exists l, NoDup l /\ length l = failures /\ forall sha, In sha l <-> unreadable_deps cache sha.
Proof.
  intros NE. unfold graph_command. fold G. destruct (new_graph_stats cache failed HN) as (A & B & C & D & E0). fold G in A, B, C, D, E0.
  rewrite A, B, C. assert (graph_bool cache = true) as -> by (destruct cache; [contradiction|reflexivity]). cbn [negb].
  assert (length cache <> 0) as Z by (destruct cache; [contradiction|discriminate]).
  replace (length cache + length failed =? 0) with false by (symmetry; apply Nat.eqb_neq; lia).
  replace (length cache =? 0) with false by (symmetry; apply Nat.eqb_neq; lia). cbn [orb].
  pose proof (menu_session lines) as M. destruct (menu L G lines) as (out & f). cbn [fst snd] in M. exists out, f, (length (st_failed_deps (g_stats G))).
  split; [reflexivity|]. split; [exact M|]. exists (dkeys (st_failed_deps (g_stats G))). split; [exact D|]. split; [apply map_length|exact E0].
Qed.
End Recipes.
Lemma command_without_recipes L failed lines : graph_command L [] failed lines = ([S_no_recipes], Exit CLICK_USAGE).
Proof. reflexivity. Qed.
Lemma plot_of_package cache failed L : searches L -> forall gt dir p,
  (connected cache gt (PStr p) -> exists nodes, plot L gt dir (Some p) (new_graph cache failed) = Ok nodes
     /\ forall x, In x nodes <-> clos_refl_trans _ (toward cache gt dir) (PStr p) x)
  /\ (~ connected cache gt (PStr p) -> exists e, plot L gt dir (Some p) (new_graph cache failed) = Err e).
Proof.
  intros HL gt dir p. destruct (HL (get_graph gt (new_graph cache failed)) p (reverse_flag dir)) as (H1 & H2). unfold plot. split; intros H.
  - destruct H1 as (nodes & -> & K); [apply node_connected, H|]. exists nodes. split; [reflexivity|]. intros x. rewrite K. apply path_toward.
  - destruct H2 as (e & ->); [rewrite node_connected; exact H|]. exists e. reflexivity.
Qed.
Lemma nodes_distinct l : forall acc, distinct_names acc -> distinct_names (fold_left (fun acc x => if pmem_prim x acc then acc else acc ++ [x]) l acc).
Proof.
  induction l as [|a l IH]; intros acc H; cbn [fold_left]; [exact H|]. apply IH. destruct (pmem_prim a acc) eqn:P; [exact H|].
  assert (forall y, In y acc -> ~ same_name y a) as K.
  { intros y Y S. assert (pmem_prim a acc = true) by (apply pmem_same; exists y; auto). congruence. }
  clear - H K. unfold distinct_names in *. induction H as [|x l H1 H2 IH]; cbn [app]; [constructor; constructor|]. constructor.
  - apply Forall_app. split; [exact H1|]. constructor; [apply K; left; reflexivity|constructor].
  - apply IH. intros y Y. apply K. right. exact Y.
Qed.
Lemma plot_of_everything cache failed L gt (dir : graph_direction) : exists nodes, plot L gt dir None (new_graph cache failed) = Ok nodes
  /\ distinct_names nodes
  /\ forall x, (exists y, In y nodes /\ same_name y x) <-> exists y, connected cache gt y /\ same_name y x.
Proof.
  eexists. split; [reflexivity|]. split; [apply nodes_distinct; constructor|]. apply nodes_connected.
Qed.
Lemma reply_length cache failed line out out' : reply cache failed line out -> reply cache failed line out' -> length out = length out'.
Proof.
  assert (forall a b, spelled line a -> spelled line b -> a = b) as U.
  { intros a b A B. rewrite <- (spelled_is _ _ A), <- (spelled_is _ _ B). reflexivity. }
  assert (forall t gt o, spelled line [$"plot"; t; $"all"] -> type_named t gt -> reply cache failed line o -> length o = 2) as K.
  { intros t gt o A B R. assert (forall w, ~ spelled line [w]) as N1 by (intros w C; pose proof (U _ _ A C); discriminate).
    assert (forall t d p, ~ spelled line [$"plot"; t; d; p]) as N2 by (intros t' d p C; pose proof (U _ _ A C); discriminate).
    destruct R as [w C|w s C|(w & C & _)|t' gt' nodes C D E0|t' gt' d dir p nodes C|t' gt' d dir p C|t' rest C D E0|t' gt' d p C|ws C D];
      try (exfalso; eapply N1; exact C); try (exfalso; eapply N2; exact C); [reflexivity| |].
    - exfalso. pose proof (U _ _ A C) as Q. injection Q as <- _. exact (E0 gt B).
    - exfalso. pose proof (U _ _ A C) as <-. apply D. constructor. }
  assert (forall o, reply cache failed line o -> length o = 1 \/ exists t gt, spelled line [$"plot"; t; $"all"] /\ type_named t gt /\ length o = 2) as K2.
  { intros o R. destruct R; auto. right. eauto 6. }
  intros A B. destruct (K2 _ A) as [A1|(t & gt & A1 & A2 & A3)]; destruct (K2 _ B) as [B1|(t' & gt' & B1 & B2 & B3)].
  - congruence.
  - rewrite (K _ _ _ B1 B2 A). congruence.
  - rewrite (K _ _ _ A1 A2 B). congruence.
  - congruence.
Qed.
Lemma quits_no_stumble cache line : quits line -> ~ stumbles cache line.
Proof.
  intros (w & A & _) (t & gt & d & dir & p & B & _). pose proof (spelled_is _ _ A) as H. rewrite (spelled_is _ _ B) in H. discriminate H.
Qed.
Lemma sessions_alike cache failed lines out f out' f' :
  session cache failed lines out f -> session cache failed lines out' f' -> length out = length out' /\ (f = f' \/ exists e e', f = Raise e /\ f' = Raise e').
Proof.
  intros H. revert out' f'. induction H as [|line rest Q|line rest e S|line rest o m f NQ NS R H IH]; intros out' f' K; inversion K; subst; try contradiction.
  - split; auto.
  - split; auto.
  - exfalso. eapply quits_no_stumble; eauto.
  - exfalso. eapply quits_no_stumble; eauto.
  - split; [reflexivity|]. right. eauto.
  - rewrite !app_length. edestruct IH as (A & B); [eassumption|]. split; [|exact B]. f_equal; [eapply reply_length; eauto|exact A].
Qed.
