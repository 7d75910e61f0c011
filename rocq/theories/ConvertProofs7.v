(** C80 to C83, continued (proofs only). *)
From Verif Require Export ConvertProofs6.
From Verif Require Import Lemmas PatchProofs PatchProofs3 PathProofs PathSpec PatchSpec RenderSpec RenderProofs RenderProofs2 RegexProofs ConvertSpec.
From Coq Require Import Permutation.

Ltac walk := repeat (cbv zeta; first
  [ match goal with |- forall _, _ => intro end
  | match goal with
    | |- walks _ (andthen _ _) => apply walks_andthen
    | |- walks _ (ret _) => apply walks_ret
    | |- walks _ (ask _) => apply walks_ask
    | |- walks _ (has _) => apply walks_ask
    | |- walks _ (value _ _ _) => apply walks_ask
    | |- walks _ (pure _) => apply walks_pure
    | |- walks _ (say _ _) => apply walks_say
    | |- walks _ (each _ _) => apply walks_each
    | |- walks _ (when _ _) => apply walks_when
    | |- walks _ (patch_and_log _ _) => apply walks_patch
    | |- walks _ (call (remove_selector _ _)) => apply walks_unselect
    | |- walks _ (sort_keys _ _) => apply walks_sort
    end
  | match goal with |- walks _ (if ?b then _ else _) => destruct b end
  | match goal with |- walks _ (match ?x with _ => _ end) => destruct x end ]).
Lemma walks_keeps {A} E (m : conv A) s a s' c x : walks E m -> m s = (Ok a, s') ->
  In x (get_messages c (msgs s)) -> In x (get_messages c (msgs s')).
Proof.
  intros W H I. destruct (W _ _ _ H) as (ps & S). destruct (steps_grow _ _ _ _ c S) as (l & ->). apply in_or_app. left. exact I.
Qed.
Lemma patch_and_log_cases T p s : exists b s1, (patch_and_log T p s = (Ok b, s1) /\ fst (patch (t_env T) p (v1 s)) = Ok b
     /\ (b = true -> msgs s1 = msgs s) /\ (b = false -> In (failure p) (get_messages ERROR (msgs s1))))
  \/ (exists e, patch_and_log T p s = (Err e, s1)).
Proof.
  unfold patch_and_log, andthen, call. destruct (patch (t_env T) p (v1 s)) as [[b|e] r] eqn:P; cbn [fst].
  - exists b. destruct b; cbn [negb when].
    + eexists. left. split; [reflexivity|]. split; [reflexivity|]. cbn [msgs]. split; [reflexivity|discriminate].
    + eexists. left. split; [reflexivity|]. split; [reflexivity|]. cbn [msgs]. split; [discriminate|]. intros _.
      unfold failure. rewrite (add_one_more ERROR _ _ ERROR). cbn [category_eqb]. apply in_or_app. right. left. reflexivity.
  - exists false. eexists. right. exists e. reflexivity.
Qed.
Lemma c80 T s s' : NoDup (map fst (r_vars (v1 s))) -> upgrade_jinja_to_context_obj T s = (Ok tt, s') ->
  exists ctx, Forall2 (fun a b => fst a = fst b /\ context_entry (snd a) (snd b)) (filter (fun kv => supported (snd kv)) (r_vars (v1 s))) ctx
  /\ (forall name v, In (name, v) (r_vars (v1 s)) -> supported v = false -> In (unsupported_message name) (get_messages WARNING (msgs s')))
  /\ (ctx <> [] -> exists b, fst (patch (t_env T) (add_context ctx) (v1 s)) = Ok b
                             /\ (b = false -> In (failure (add_context ctx)) (get_messages ERROR (msgs s')))).
Proof.
  intros ND H. pose proof (walks_jinja T) as W0. unfold upgrade_jinja_to_context_obj in H. unfold andthen at 1, ask at 1 in H. cbv beta iota in H.
  destruct (c80_of (r_vars (v1 s)) [] s ND) as (ctx & s1 & C & F & V & Wa & _). unfold andthen at 1 in H. cbn [app] in C.
  match type of H with context [context_of ?a ?b s] => change (context_of a b s) with (context_of (r_vars (v1 s)) [] s) in H end.
  rewrite C in H. exists ctx. split; [exact F|].
  match type of H with ?m s1 = _ => assert (walks (t_env T) m) as W1 end.
  { walk. }
  split.
  - intros name v I S. apply (walks_keeps _ _ _ _ _ _ _ W1 H). rewrite Wa. apply in_or_app. right.
    apply (in_map (fun kv => unsupported_message (fst kv)) _ (name, v)). apply filter_In. split; [exact I|]. cbn [snd]. rewrite S. reflexivity.
  - intros NE. destruct ctx as [|kv ctx]; [contradiction|]. cbn [is_nil negb when] in H. unfold andthen at 1 in H. unfold andthen at 1 in H.
    match type of H with context [when ?b ?m s1] => destruct (when b m s1) as [[[]|e] s2] eqn:S2 end; [|discriminate].
    assert (v1 s2 = v1 s) as V2.
    { rewrite <- V. match type of S2 with when ?b _ _ = _ => destruct b end; cbn [when] in S2; [unfold say in S2|unfold ret in S2]; injection S2 as <-; reflexivity. }
    unfold andthen at 1 in H.
    match type of H with context [patch_and_log T ?p s2] => change p with (add_context (kv :: ctx)) in H; destruct (patch_and_log_cases T (add_context (kv :: ctx)) s2) as (b & s3 & [(K & P & _ & Fl)|(e & K)]) end.
    + rewrite K in H. exists b. rewrite V2 in P. split; [exact P|]. intros B. cbv beta iota in H. unfold ret at 1 in H.
      match type of H with ?m s3 = _ => assert (walks (t_env T) m) as W3 end.
      { walk. }
      apply (walks_keeps _ _ _ _ _ _ _ W3 H). exact (Fl B).
    + rewrite K in H. discriminate.
Qed.

(** * Tests *)
Lemma filter_all {A} (f : A -> bool) l : (forall x, In x l -> f x = true) -> filter f l = l.
Proof. induction l as [|x l IH]; intros H; [reflexivity|]. cbn [filter]. rewrite (H x (or_introl eq_refl)), IH; [reflexivity|]. intros y I. apply H. right. exact I. Qed.
Lemma pdel_none k d : assoc_prim k d = None -> pdel k d = d.
Proof.
  induction d as [|[k' v] d IH]; intros H; [reflexivity|]. cbn [assoc_prim pdel] in *. destruct (prim_eqb k k'); [discriminate|]. rewrite IH by exact H. reflexivity.
Qed.
Definition not_key (s : str) (kv : prim * json) : bool := negb (prim_eqb (PStr s) (fst kv)).
Lemma pdel_filter s d : NoDup (map fst d) -> pdel (PStr s) d = filter (not_key s) d.
Proof.
  induction d as [|[k v] d IH]; intros ND; [reflexivity|]. inversion ND as [|? ? N ND']; subst. cbn [pdel filter]. unfold not_key at 1. cbn [fst].
  destruct (prim_eqb (PStr s) k) eqn:Q; cbn [negb]; [|rewrite IH by exact ND'; reflexivity].
  apply prim_eqb_str_l in Q as ->. symmetry. rewrite filter_all; [reflexivity|]. intros [k' v'] I. unfold not_key. cbn [fst].
  destruct (prim_eqb (PStr s) k') eqn:Q; [|reflexivity]. apply prim_eqb_str_l in Q as ->. exfalso. apply N. exact (in_map fst _ _ I).
Qed.
Lemma assoc_in s (d : list (prim * json)) v : assoc_prim (PStr s) d = Some v -> In (PStr s, v) d.
Proof.
  induction d as [|[k w] d IH]; intros H; [discriminate|]. cbn [assoc_prim] in H. destruct (prim_eqb (PStr s) k) eqn:Q.
  - apply prim_eqb_str_l in Q as ->. injection H as ->. left. reflexivity.
  - right. exact (IH H).
Qed.
Lemma in_assoc s (d : list (prim * json)) v : NoDup (map fst d) -> In (PStr s, v) d -> assoc_prim (PStr s) d = Some v.
Proof.
  induction d as [|[k w] d IH]; intros ND I; [contradiction|]. inversion ND as [|? ? N ND']; subst. cbn [assoc_prim]. destruct I as [[= -> ->]|I].
  - rewrite prim_eqb_refl. reflexivity.
  - destruct (prim_eqb (PStr s) k) eqn:Q; [|exact (IH ND' I)]. apply prim_eqb_str_l in Q as ->. exfalso. apply N. exact (in_map fst _ _ I).
Qed.
Lemma assoc_not_in s (d : list (prim * json)) : assoc_prim (PStr s) d = None <-> ~ In (PStr s) (map fst d).
Proof.
  induction d as [|[k w] d IH]; cbn [assoc_prim map fst In]; [split; auto|]. destruct (prim_eqb (PStr s) k) eqn:Q.
  - apply prim_eqb_str_l in Q as ->. split; [discriminate|intros H; exfalso; auto].
  - rewrite IH. split; [|tauto]. intros H [->|I]; [rewrite prim_eqb_refl in Q; discriminate|auto].
Qed.
Lemma nodup_filter_keys (f : prim * json -> bool) d : NoDup (map fst d) -> NoDup (map fst (filter f d)).
Proof.
  induction d as [|kv d IH]; intros ND; [constructor|]. inversion ND as [|? ? N ND']; subst. cbn [filter]. destruct (f kv); [|exact (IH ND')].
  cbn [map]. constructor; [|exact (IH ND')]. intros I. apply N. apply in_map_iff in I as (x & E & I). apply filter_In in I as [I _].
  rewrite <- E. apply in_map. exact I.
Qed.
Lemma pick_out s d v : NoDup (map fst d) -> In (PStr s, v) d -> Permutation ((PStr s, v) :: filter (not_key s) d) d.
Proof.
  induction d as [|[k w] d IH]; intros ND I; [contradiction|]. inversion ND as [|? ? N ND']; subst. cbn [filter]. unfold not_key at 1. cbn [fst].
  destruct I as [[= -> ->]|I].
  - rewrite prim_eqb_refl. cbn [negb]. rewrite filter_all; [reflexivity|]. intros [k' v'] I. unfold not_key. cbn [fst].
    destruct (prim_eqb (PStr s) k') eqn:Q; [|reflexivity]. apply prim_eqb_str_l in Q as ->. exfalso. apply N. exact (in_map fst _ _ I).
  - destruct (prim_eqb (PStr s) k) eqn:Q; cbn [negb].
    + apply prim_eqb_str_l in Q as ->. exfalso. apply N. exact (in_map fst _ _ I).
    + rewrite perm_swap. constructor. exact (IH ND' I).
Qed.
Lemma no_key_filter s d : ~ In (PStr s) (map fst d) -> filter (not_key s) d = d.
Proof.
  intros N. apply filter_all. intros [k v] I. unfold not_key. cbn [fst]. destruct (prim_eqb (PStr s) k) eqn:Q; [|reflexivity].
  apply prim_eqb_str_l in Q as ->. exfalso. apply N. exact (in_map fst _ _ I).
Qed.
Lemma take_out_dict s d tests : NoDup (map fst d) -> exists new, take_out s (JDict d, tests) = Ok (JDict (filter (not_key s) d), tests ++ new)
  /\ (In (PStr s) (map fst d) -> exists v, new = [JDict [(PStr s, v)]] /\ Permutation ((PStr s, v) :: filter (not_key s) d) d)
  /\ (~ In (PStr s) (map fst d) -> new = [] /\ filter (not_key s) d = d).
Proof.
  intros ND. unfold take_out. cbn [json_in bind]. destruct (assoc_prim (PStr s) d) as [v|] eqn:A; cbn [is_some].
  - exists [JDict [(PStr s, v)]]. rewrite (pdel_filter s d ND). split; [reflexivity|]. pose proof (assoc_in s d v A) as I. split.
    + intros _. exists v. split; [reflexivity|]. exact (pick_out s d v ND I).
    + intros N. exfalso. apply N. exact (in_map fst _ _ I).
  - pose proof (proj1 (assoc_not_in s d) A) as N. exists []. rewrite app_nil_r, (no_key_filter s d N). split; [reflexivity|]. split; [intros I; contradiction|auto].
Qed.
Definition plain (kv : prim * json) : bool := not_key $"python" kv && not_key $"downstream" kv.
Lemma filter_filter {A} (f g : A -> bool) l : filter f (filter g l) = filter (fun x => g x && f x) l.
Proof. induction l as [|x l IH]; [reflexivity|]. cbn [filter]. destruct (g x); cbn [filter andb]; rewrite IH; reflexivity. Qed.
Lemma key_kept a b d : a <> b -> (In (PStr a) (map fst (filter (not_key b) d)) <-> In (PStr a) (map fst d)).
Proof.
  intros N. rewrite !in_map_iff. split; intros ([k v] & E & I); cbn [fst] in E; subst k; exists (PStr a, v); (split; [reflexivity|]).
  - apply filter_In in I. tauto.
  - apply filter_In. split; [exact I|]. unfold not_key. cbn [fst]. destruct (prim_eqb (PStr b) (PStr a)) eqn:Q; [|reflexivity].
    apply prim_eqb_str_l in Q. injection Q as ->. contradiction.
Qed.
Lemma c81_plain d : NoDup (map fst d) -> exists tests, split_tests (JDict d) = Ok tests
  /\ Permutation (concat (map entries_of tests)) d
  /\ Forall (fun t => exists e, t = JDict e /\ e <> [] /\ ((exists k v, special k /\ e = [(k, v)]) \/ e = filter plain d)) tests.
Proof.
  intros ND. unfold split_tests. destruct (take_out_dict $"python" d [] ND) as (n1 & -> & A1 & B1). cbn [bind app].
  destruct (take_out_dict $"downstream" (filter (not_key $"python") d) n1 (nodup_filter_keys _ d ND)) as (n2 & -> & A2 & B2). cbn [bind fst snd].
  rewrite filter_filter in *. change (filter (fun x => not_key $"python" x && not_key $"downstream" x) d) with (filter plain d) in *.
  set (r := filter plain d) in *.
  eexists. split; [reflexivity|].
  assert (Permutation (concat (map entries_of (n1 ++ n2)) ++ r) d
    /\ Forall (fun t => exists e, t = JDict e /\ e <> [] /\ ((exists k v, special k /\ e = [(k, v)]) \/ e = r)) (n1 ++ n2)) as (P & F).
  { destruct (in_dec prim_dec (PStr $"python") (map fst d)) as [I1|I1]; [destruct (A1 I1) as (v1 & -> & P1)|destruct (B1 I1) as (-> & P1)];
    (destruct (in_dec prim_dec (PStr $"downstream") (map fst (filter (not_key $"python") d))) as [I2|I2];
      [destruct (A2 I2) as (v2 & -> & P2)|destruct (B2 I2) as (-> & P2)]); cbn [app map entries_of concat]; rewrite ?app_nil_r.
    - split; [rewrite <- P1 at 1; constructor; exact P2|]. repeat constructor.
      + eexists. split; [reflexivity|]. split; [discriminate|]. left. exists (PStr $"python"), v1. split; [left; reflexivity|reflexivity].
      + eexists. split; [reflexivity|]. split; [discriminate|]. left. exists (PStr $"downstream"), v2. split; [right; reflexivity|reflexivity].
    - split; [rewrite <- P1 at 1; rewrite P2; reflexivity|]. repeat constructor.
      eexists. split; [reflexivity|]. split; [discriminate|]. left. exists (PStr $"python"), v1. split; [left; reflexivity|reflexivity].
    - split; [rewrite P1 in P2; exact P2|]. repeat constructor.
      eexists. split; [reflexivity|]. split; [discriminate|]. left. exists (PStr $"downstream"), v2. split; [right; reflexivity|reflexivity].
    - split; [rewrite P2, P1; reflexivity|constructor]. }
  cbn [json_truthy]. clearbody r; destruct r as [|x r]; cbn [is_nil negb].
  - rewrite app_nil_r in P. split; [exact P|exact F].
  - rewrite map_app, concat_app. cbn [map entries_of concat]. rewrite app_nil_r. split; [exact P|]. apply Forall_app. split; [exact F|].
    repeat constructor. eexists. split; [reflexivity|]. split; [discriminate|right; reflexivity].
Qed.
Lemma plain_ordinary d : filter plain d = filter ordinary d.
Proof.
  apply filter_ext. intros [k v]. unfold plain, not_key, ordinary. cbn [fst]. destruct k; try reflexivity. cbn [prim_eqb].
  rewrite (str_eqb_sym _ $"python"), (str_eqb_sym _ $"downstream"). reflexivity.
Qed.
Lemma c81 d : NoDup (map fst d) -> exists tests, split_tests (JDict d) = Ok tests
  /\ Permutation (concat (map entries_of tests)) d
  /\ Forall (fun t => exists e, t = JDict e /\ e <> [] /\ ((exists k v, special k /\ e = [(k, v)]) \/ e = filter ordinary d)) tests.
Proof. intros ND. destruct (c81_plain d ND) as (tests & H). rewrite plain_ordinary in H. exists tests. exact H. Qed.

(** * The environment *)
Lemma jset_assoc k v d n : assoc_prim (PStr n) (jset k v d) = if str_eqb n k then Some v else assoc_prim (PStr n) d.
Proof.
  induction d as [|[k' w] d IH]; cbn [jset assoc_prim].
  - destruct (str_eqb n k) eqn:Q.
    + apply str_eqb_eq in Q as ->. rewrite prim_eqb_refl. reflexivity.
    + destruct (prim_eqb (PStr n) (PStr k)) eqn:R; [|reflexivity]. apply prim_eqb_str_l in R. injection R as ->. rewrite str_eqb_refl in Q. discriminate.
  - destruct (prim_eqb (PStr k) k') eqn:Q.
    + apply prim_eqb_str_l in Q as ->. cbn [assoc_prim]. destruct (str_eqb n k) eqn:R.
      * apply str_eqb_eq in R as ->. rewrite prim_eqb_refl. reflexivity.
      * destruct (prim_eqb (PStr n) (PStr k)) eqn:S; [|reflexivity]. apply prim_eqb_str_l in S. injection S as ->. rewrite str_eqb_refl in R. discriminate.
    + cbn [assoc_prim]. destruct (prim_eqb (PStr n) k') eqn:R; [|exact IH]. apply prim_eqb_str_l in R as ->.
      destruct (str_eqb n k) eqn:S; [|reflexivity]. apply str_eqb_eq in S as ->. rewrite prim_eqb_refl in Q. discriminate.
Qed.
Lemma jset_keys k v d : NoDup (map fst d) -> NoDup (map fst (jset k v d)).
Proof.
  assert (forall d, forall x, In x (map fst (jset k v d)) -> x = PStr k \/ In x (map fst d)) as G.
  { clear d. induction d as [|[k' w] d IH]; cbn [jset map fst In]; [intuition|]. intros x. destruct (prim_eqb (PStr k) k'); cbn [map fst In]; [tauto|].
    intros [->|I]; [tauto|]. apply IH in I. tauto. }
  induction d as [|[k' w] d IH]; intros ND; cbn [jset map fst].
  - repeat constructor. intros [].
  - inversion ND as [|? ? N ND']; subst. destruct (prim_eqb (PStr k) k') eqn:Q; cbn [map fst]; [constructor; assumption|].
    constructor; [|exact (IH ND')]. intros I. apply G in I as [->|I]; [|contradiction]. rewrite prim_eqb_refl in Q. discriminate.
Qed.
Lemma some_split w : forall t, exists a l, split_on "="%char (w ++ "="%char :: t) = a :: l /\ exists k, l = k ++ split_on "="%char t.
Proof.
  induction w as [|c w IH]; intros t.
  - exists [], (split_on "="%char t). split; [|exists []; reflexivity]. apply (split_on_app "="%char [] t). intros [].
  - destruct (ascii_dec c "="%char) as [->|N].
    + destruct (IH t) as (a & l & E & k & K). exists [], (a :: l). split; [|exists (a :: k); rewrite K; reflexivity].
      cbn [app]. rewrite <- E. apply (split_on_app "="%char [] (w ++ "="%char :: t)). intros [].
    + destruct (IH t) as (a & l & E & k & K). exists (c :: a), l. split; [|exists k; exact K]. cbn [app]. cbn [split_on].
      rewrite E. destruct (ceq c "="%char) eqn:Q; [apply ceq_eq in Q; congruence|]. reflexivity.
Qed.
Lemma many_split x y z : exists a b c l, split_on "="%char (x ++ "="%char :: y ++ "="%char :: z) = a :: b :: c :: l.
Proof.
  destruct (some_split x (y ++ "="%char :: z)) as (a & l & E & k & K). destruct (some_split y z) as (b & l2 & E2 & k2 & K2).
  rewrite E, K, E2. pose proof (PatchProofs2.split_on_nonempty "="%char z) as NE. rewrite K2.
  destruct (k2 ++ split_on "="%char z) as [|c l3] eqn:X; [apply app_eq_nil in X as [_ X]; contradiction|].
  destruct k as [|k0 [|k1 k]]; cbn [app]; repeat eexists.
Qed.

Lemma env_entry_spec path item kind env secrets s : env_reads item kind -> exists s',
  env_entry path item (env, secrets) s
    = (Ok (match kind with Setting n v => jset n (JStr v) env | _ => env end, match kind with Secret j => secrets ++ [j] | _ => secrets end), s')
  /\ v1 s' = v1 s
  /\ length (get_messages ERROR (msgs s')) = length (get_messages ERROR (msgs s)) + match kind with Rejected => 1 | _ => 0 end
  /\ (forall c, c <> ERROR -> get_messages c (msgs s') = get_messages c (msgs s)).
Proof.
  assert (forall e, exists s', (do! say ERROR e in ret (env, secrets)) s = (Ok (env, secrets), s') /\ v1 s' = v1 s
    /\ length (get_messages ERROR (msgs s')) = length (get_messages ERROR (msgs s)) + 1
    /\ (forall c, c <> ERROR -> get_messages c (msgs s') = get_messages c (msgs s))) as Bad.
  { intros e. eexists. unfold andthen, say, ret. split; [reflexivity|]. cbn [v1 msgs]. split; [reflexivity|].
    pose proof (add_one_more ERROR e (msgs s)) as O. split.
    - rewrite (O ERROR). cbn [category_eqb]. rewrite app_length. reflexivity.
    - intros c N. rewrite (O c). destruct c; try reflexivity. contradiction. }
  intros H. unfold env_entry. destruct H as [t N|a b Na Nb|a b c|d t I ND N|d a b I ND|d N].
  - rewrite (split_on_nosep "="%char t N). cbn [map]. exists s. unfold ret. rewrite Nat.add_0_r. auto.
  - rewrite (split_on_app "="%char a b Na), (split_on_nosep "="%char b Nb). cbn [map]. exists s. unfold ret. rewrite Nat.add_0_r. auto.
  - destruct (many_split a b c) as (x & y & z & l & ->). cbn [map]. apply Bad.
  - rewrite (in_assoc $"then" d _ ND I), (split_on_nosep "="%char t N). exists s. unfold ret. rewrite Nat.add_0_r. auto.
  - rewrite (in_assoc $"then" d _ ND I). destruct (some_split a b) as (x & l & -> & k & ->).
    destruct (k ++ split_on "="%char b) as [|y l] eqn:X; [apply app_eq_nil in X as [_ X]; destruct (PatchProofs2.split_on_nonempty _ _ X)|]. apply Bad.
  - assert (assoc_prim (PStr $"then") d = None) as ->; [|apply Bad]. apply assoc_not_in. intros I. apply in_map_iff in I as ([k v] & E & I).
    cbn [fst] in E. subst k. exact (N v I).
Qed.
Lemma c82_env path kinds : forall items env secrets s, Forall2 env_reads items kinds -> NoDup (map fst env) -> exists env' s',
  env_entries path items (env, secrets) s = (Ok (env', secrets ++ secrets_of kinds), s')
  /\ (forall n, assoc_prim (PStr n) env' = match last_entry n (settings_of kinds) with Some v => Some v | None => assoc_prim (PStr n) env end)
  /\ NoDup (map fst env') /\ v1 s' = v1 s
  /\ length (get_messages ERROR (msgs s')) = length (get_messages ERROR (msgs s)) + rejected_in kinds
  /\ (forall c, c <> ERROR -> get_messages c (msgs s') = get_messages c (msgs s)).
Proof.
  induction kinds as [|kind kinds IH]; intros items env secrets s F ND; inversion F as [|item ? items' ? Hi F']; subst.
  - exists env, s. cbn [env_entries secrets_of flat_map]. unfold ret. rewrite app_nil_r. unfold rejected_in. cbn [filter length].
    rewrite Nat.add_0_r. auto 8.
  - cbn [env_entries]. unfold andthen. destruct (env_entry_spec path item kind env secrets s Hi) as (s1 & -> & V & Er & O).
    match goal with |- context [env_entries path items' (?e, ?c) s1] => destruct (IH items' e c s1 F') as (env' & s' & -> & A & ND' & V' & Er' & O') end.
    { destruct kind; [apply jset_keys; exact ND|exact ND|exact ND]. }
    exists env', s'. split.
    { f_equal. f_equal. f_equal. destruct kind; cbn [secrets_of flat_map app]; rewrite <- ?app_assoc; reflexivity. }
    split.
    { intros n. rewrite A. unfold settings_of. cbn [flat_map]. destruct kind as [k v|j|]; try reflexivity.
      rewrite last_entry_app. fold (settings_of kinds). destruct (last_entry n (settings_of kinds)); [reflexivity|].
      rewrite last_entry_one, jset_assoc. cbn [fst snd prim_str]. destruct (str_eqb n k); reflexivity. }
    split; [exact ND'|]. split; [congruence|]. split.
    { rewrite Er', Er. unfold rejected_in. cbn [filter]. destruct kind; cbn [length]; lia. }
    intros c N. rewrite O', O by exact N. reflexivity.
Qed.
Lemma c82 path items kinds s : Forall2 env_reads items kinds -> exists env s',
  env_entries path items ([], []) s = (Ok (env, secrets_of kinds), s')
  /\ (forall n, assoc_prim (PStr n) env = last_entry n (settings_of kinds)) /\ NoDup (map fst env) /\ v1 s' = v1 s
  /\ length (get_messages ERROR (msgs s')) = length (get_messages ERROR (msgs s)) + rejected_in kinds
  /\ (forall c, c <> ERROR -> get_messages c (msgs s') = get_messages c (msgs s)).
Proof.
  intros F. destruct (c82_env path kinds items [] [] s F ltac:(constructor)) as (env & s' & H & A & R). exists env, s'. split; [exact H|]. split; [|exact R].
  intros n. rewrite A. destruct (last_entry n (settings_of kinds)); reflexivity.
Qed.

(** * Lost comments *)
Lemma c83_each (l : list (str * str)) : forall s s',
  each l (fun kv => run! there := has (fst kv) in when (negb there) (say WARNING (lost_message (snd kv)))) s = (Ok tt, s') ->
  v1 s' = v1 s
  /\ get_messages WARNING (msgs s') = get_messages WARNING (msgs s)
       ++ map (fun kv => lost_message (snd kv)) (filter (fun kv => match lookup (r_root (v1 s)) (fst kv) with Some _ => false | None => true end) l)
  /\ (forall c, c <> WARNING -> get_messages c (msgs s') = get_messages c (msgs s)).
Proof.
  induction l as [|[p c] l IH]; intros s s' H.
  - injection H as <-. cbn [filter map]. rewrite app_nil_r. auto.
  - cbn [each] in H. unfold andthen at 1 in H. unfold andthen at 1 in H. unfold has, ask in H. cbn [fst snd] in H. cbn [filter fst].
    unfold contains_value in H. unfold lookup at 1. destruct (str_to_stack_path p) as [st|e] eqn:SP; [|discriminate]. cbn [bind] in H.
    destruct (traverse (r_root (v1 s)) st) as [n|]; cbn [negb when ret] in H.
    + exact (IH s s' H).
    + unfold say in H. apply IH in H as (V & W & O). cbn [v1 msgs] in *. split; [exact V|].
      pose proof (add_one_more WARNING (lost_message c) (msgs s)) as M. split.
      * rewrite W, (M WARNING). cbn [category_eqb map snd]. rewrite <- app_assoc. reflexivity.
      * intros d N. rewrite (O d N), (M d). destruct d; try reflexivity. contradiction.
Qed.
Lemma c83 T old s s' : report_lost_comments T old s = (Ok tt, s') ->
  v1 s' = v1 s
  /\ get_messages WARNING (msgs s') = get_messages WARNING (msgs s)
       ++ map (fun kv => lost_message (snd kv))
            (filter (fun kv => negb (dmem (fst kv) (get_comments_table (t_env T) (r_root (v1 s))))
                               && match lookup (r_root (v1 s)) (fst kv) with Some _ => false | None => true end) old)
  /\ (forall c, c <> WARNING -> get_messages c (msgs s') = get_messages c (msgs s)).
Proof.
  intros H. unfold report_lost_comments in H. unfold andthen at 1, ask at 1 in H. cbv beta iota in H.
  apply c83_each in H as (V & W & O). rewrite filter_filter in W. auto.
Qed.
