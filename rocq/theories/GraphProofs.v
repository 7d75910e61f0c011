(** Proofs about recipe graphs and build configuration files (C51-C53). *)
From Coq Require Import NArith ZArith Lia.
From Verif Require Import Lemmas PathProofs PatchProofs PatchProofs2 PatchProofs3 DepsProofs GraphSpec.

(** * Comparing primitives *)
Fixpoint nval (a : N) (s : str) : N :=
  match s with [] => a | c :: s' => nval (10 * a + N.of_nat (digit_val c))%N s' end.
Lemma nval_app s : forall t a, nval a (s ++ t) = nval (nval a s) t.
Proof. induction s as [|c s IH]; intros t a; cbn [nval app]; [reflexivity|apply IH]. Qed.
Fixpoint go (fuel : nat) (n : N) (acc : str) : str :=
  match fuel with
  | 0 => acc
  | S f =>
      let acc' := ch (48 + N.to_nat (n mod 10)%N) :: acc in
      if (n <? 10)%N then acc' else go f (n / 10)%N acc'
  end.
Lemma str_of_N_value n : nval 0 (str_of_N n) = n /\ forallb is_digit (str_of_N n) = true.
Proof.
  change (str_of_N n) with (go (S (N.to_nat (N.log2 n))) n []).
  assert (HD : forall r, r < 10 -> is_digit (ch (48 + r)) = true /\ digit_val (ch (48 + r)) = r).
  { intros r Hr. do 10 (destruct r as [|r]; [vm_compute; auto|]). lia. }
  assert (G : forall fuel n acc, (n < 2 ^ N.of_nat fuel)%N -> 0 < fuel ->
    exists d, go fuel n acc = d ++ acc /\ nval 0 d = n /\ forallb is_digit d = true).
  { induction fuel as [|fuel IH]; intros m acc L P; [lia|]. cbn [go]. cbv zeta.
    assert (R : N.to_nat (m mod 10) < 10) by (pose proof (N.mod_lt m 10); lia).
    destruct (HD _ R) as [H1 H2]. set (c := ch (48 + N.to_nat (m mod 10))) in *. clearbody c.
    destruct (N.ltb_spec m 10) as [S|S].
    - exists [c]. split; [reflexivity|]. split; [|cbn [forallb]; rewrite H1; reflexivity]. cbn [nval]. rewrite H2, N2Nat.id, N.mod_small by exact S. lia.
    - assert (P' : 0 < fuel).
      { destruct fuel; [|lia]. change (2 ^ N.of_nat 1)%N with 2%N in L. lia. }
      destruct (IH (m / 10)%N (c :: acc)) as (d & E & V & D); [|exact P'|].
      + rewrite Nat2N.inj_succ, N.pow_succ_r' in L. apply N.div_lt_upper_bound; [lia|]. lia.
      + exists (d ++ [c]). rewrite E, <- app_assoc. split; [reflexivity|]. split.
        * rewrite nval_app, V. cbn [nval]. rewrite H2, N2Nat.id. pose proof (N.div_mod m 10). lia.
        * rewrite forallb_app, D. cbn [forallb]. rewrite H1. reflexivity. }
  destruct (G (S (N.to_nat (N.log2 n))) n []) as (d & E & V & D); [|lia|].
  - rewrite Nat2N.inj_succ, N2Nat.id. destruct n as [|p]; [reflexivity|]. apply N.log2_spec. lia.
  - rewrite E, app_nil_r. split; assumption.
Qed.
Lemma str_of_N_inj a b : str_of_N a = str_of_N b -> a = b.
Proof. intros H. rewrite <- (proj1 (str_of_N_value a)), <- (proj1 (str_of_N_value b)), H. reflexivity. Qed.
Lemma str_of_Z_inj a b : str_of_Z a = str_of_Z b -> a = b.
Proof.
  assert (N0 : $"0" = str_of_N 0) by reflexivity.
  assert (M : forall n s, "-"%char :: s <> str_of_N n).
  { intros n s E. pose proof (proj2 (str_of_N_value n)) as D. rewrite <- E in D. discriminate. }
  destruct a as [|p|p], b as [|q|q]; cbn [str_of_Z]; rewrite ?N0; intros H; try reflexivity.
  - apply str_of_N_inj in H. discriminate.
  - symmetry in H. apply M in H. contradiction.
  - apply str_of_N_inj in H. discriminate.
  - apply str_of_N_inj in H. congruence.
  - symmetry in H. apply M in H. contradiction.
  - apply M in H. contradiction.
  - apply M in H. contradiction.
  - injection H as H. apply str_of_N_inj in H. congruence.
Qed.
(** The value that decides about equality. *)
Definition canon (p : prim) : prim :=
  match p with
  | PBool b => PFloat (int_repr_as_float (Z_of_bool b))
  | PInt z => PFloat (int_repr_as_float z)
  | _ => p
  end.
Lemma int_repr_inj a b : int_repr_as_float a = int_repr_as_float b -> a = b.
Proof. unfold int_repr_as_float. intros H. apply app_inv_tail in H. apply str_of_Z_inj. exact H. Qed.
Lemma same_name_canon a b : same_name a b <-> canon a = canon b.
Proof.
  unfold same_name. destruct a as [|x|x|x|x], b as [|y|y|y|y]; cbn [prim_eqb canon]; try (split; [discriminate|discriminate]);
    try (split; [reflexivity|reflexivity]).
  - rewrite Bool.eqb_true_iff. split; [intros ->; reflexivity|]. intros H. injection H as H. destruct x, y; try reflexivity; discriminate.
  - rewrite Z.eqb_eq. split; [intros ->; reflexivity|]. intros H. apply int_repr_inj. congruence.
  - rewrite str_eqb_eq. split; [intros ->; reflexivity|]. intros H. congruence.
  - rewrite Z.eqb_eq. split; [intros ->; reflexivity|]. intros H. apply int_repr_inj. congruence.
  - rewrite Z.eqb_eq. split; [intros ->; reflexivity|]. intros H. apply int_repr_inj. congruence.
  - rewrite str_eqb_eq. split; [intros ->; reflexivity|]. intros H. congruence.
  - rewrite str_eqb_eq. split; [intros ->; reflexivity|]. intros H. congruence.
  - rewrite str_eqb_eq. split; [intros ->; reflexivity|]. intros H. congruence.
  - rewrite str_eqb_eq. split; [intros ->; reflexivity|]. intros H. congruence.
  - rewrite str_eqb_eq. split; [intros ->; reflexivity|]. intros H. congruence.
Qed.
Lemma name_refl a : same_name a a.
Proof. apply same_name_canon. reflexivity. Qed.
Lemma name_sym a b : same_name a b -> same_name b a.
Proof. rewrite !same_name_canon. congruence. Qed.
Lemma name_trans a b c : same_name a b -> same_name b c -> same_name a c.
Proof. rewrite !same_name_canon. congruence. Qed.
Lemma name_false a b : prim_eqb a b = false <-> ~ same_name a b.
Proof. unfold same_name. destruct (prim_eqb a b); split; congruence. Qed.

(** * Graphs *)
Definition first_in (l : list definition) (d : definition) : Prop :=
  exists before after, l = before ++ d :: after /\ forall x, In x before -> ~ same_name (def_name x) (def_name d).
Definition twice_in (l : list definition) (name : prim) : Prop :=
  exists a d b d' c, l = a ++ d :: b ++ d' :: c /\ same_name (def_name d) name /\ same_name (def_name d') name.
Lemma snoc_split {A} (l : list A) x a y b : l ++ [x] = a ++ y :: b -> (b = [] /\ a = l /\ x = y) \/ exists b', b = b' ++ [x] /\ l = a ++ y :: b'.
Proof.
  intros H. destruct (exists_last (l := y :: b)) as (b0 & z & E); [discriminate|].
  destruct b as [|w b] using rev_ind.
  - left. apply app_inj_tail in H. destruct H as [-> ->]. repeat split; reflexivity.
  - right. clear IHb. exists b. rewrite app_comm_cons, app_assoc in H. apply app_inj_tail in H. destruct H as [-> ->]. split; reflexivity.
Qed.
Lemma first_snoc l x d : first_in (l ++ [x]) d <-> first_in l d \/ (d = x /\ forall y, In y l -> ~ same_name (def_name y) (def_name x)).
Proof.
  split.
  - intros (a & b & E & N). apply snoc_split in E. destruct E as [(-> & -> & ->)|(b' & -> & ->)].
    + right. split; [reflexivity|exact N].
    + left. exists a, b'. split; [reflexivity|exact N].
  - intros [(a & b & -> & N)|(-> & N)].
    + exists a, (b ++ [x]). split; [rewrite <- app_assoc; reflexivity|exact N].
    + exists l, []. split; [reflexivity|exact N].
Qed.
Lemma twice_snoc l x n : twice_in (l ++ [x]) n <-> twice_in l n \/ (same_name (def_name x) n /\ exists y, In y l /\ same_name (def_name y) n).
Proof.
  split.
  - intros (a & d & b & d' & c & E & D & D'). rewrite app_comm_cons, app_assoc in E. apply snoc_split in E.
    destruct E as [(-> & <- & ->)|(c' & -> & E)].
    + right. split; [exact D'|]. exists d. split; [apply in_or_app; right; left; reflexivity|exact D].
    + left. exists a, d, b, d', c'. rewrite E, <- app_assoc. split; [reflexivity|split; assumption].
  - intros [(a & d & b & d' & c & -> & D & D')|(X & y & I & Y)].
    + exists a, d, b, d', (c ++ [x]). split; [rewrite <- !app_assoc, <- app_comm_cons, <- app_assoc; reflexivity|split; assumption].
    + apply in_split in I. destruct I as (a & b & ->). exists a, y, b, x, []. split; [rewrite <- app_assoc; reflexivity|split; assumption].
Qed.
Lemma assoc_name {V} n (l : list (prim * V)) : assoc_prim n l = None <-> forall k v, In (k, v) l -> ~ same_name n k.
Proof.
  induction l as [|[k v] l IH]; cbn [assoc_prim].
  - split; [intros _ k v []|reflexivity].
  - destruct (prim_eqb n k) eqn:E.
    + split; [discriminate|]. intros H. exfalso. apply (H k v); [left; reflexivity|exact E].
    + rewrite IH. split.
      * intros H k' v' [I|I]; [injection I as <- <-; apply name_false; exact E|exact (H k' v' I)].
      * intros H k' v' I. apply (H k' v'). right. exact I.
Qed.
Lemma add_edge_in e x g : (forall y, In y g -> edge_eqb x y = true -> y = x) -> (In e (add_edge x g) <-> In e g \/ e = x).
Proof.
  intros U. unfold add_edge. destruct (existsb (edge_eqb x) g) eqn:E.
  - apply existsb_exists in E. destruct E as (y & I & H). apply U in H; [|exact I]. subst y.
    split; [intros H; left; exact H|]. intros [H|H]; [exact H|subst e; exact I].
  - rewrite in_app_iff. cbn [In]. split; intros [H|H]; auto. destruct H as [H|[]]; auto.
Qed.
(** The edges of one package. *)
Lemma dep_edges n : forall ds g, (forall m t, In (m, t) (g_build g) -> same_name n m -> m = n) ->
  (forall m t, In (m, t) (g_test g) -> same_name n m -> m = n) ->
  let g' := fold_left (add_dep_edge n) ds g in
  g_stats g' = g_stats g /\ g_names g' = g_names g
  /\ (forall e, In e (g_build g') <-> In e (g_build g) \/ (fst e = n /\ lists_dep build_section ds (snd e)))
  /\ (forall e, In e (g_test g') <-> In e (g_test g) \/ (fst e = n /\ lists_dep test_section ds (snd e))).
Proof.
  assert (EQ : forall x y, edge_eqb x y = true -> same_name (fst x) (fst y) /\ snd x = snd y).
  { intros x y H. apply andb_true_iff in H. destruct H as [A B]. split; [exact A|apply str_eqb_eq; exact B]. }
  induction ds as [|d ds IH]; intros g B T; cbn [fold_left]; cbv zeta.
  - split; [reflexivity|]. split; [reflexivity|]. split; intros e; (split; [intros H; left; exact H|]); intros [H|(_ & d & [] & _)]; exact H.
  - set (x := (n, data_name (d_data d))).
    assert (HB : forall e, In e (add_edge x (g_build g)) <-> In e (g_build g) \/ e = x).
    { intros e. apply add_edge_in. intros [m t] I H. apply EQ in H. cbn [fst snd x] in H. destruct H as [H1 H2]. subst t.
      unfold x. f_equal. exact (B m _ I H1). }
    assert (HT : forall e, In e (add_edge x (g_test g)) <-> In e (g_test g) \/ e = x).
    { intros e. apply add_edge_in. intros [m t] I H. apply EQ in H. cbn [fst snd x] in H. destruct H as [H1 H2]. subst t.
      unfold x. f_equal. exact (T m _ I H1). }
    assert (C : forall (sec : dep_section -> Prop) t, lists_dep sec (d :: ds) t <-> (sec (d_type d) /\ data_name (d_data d) = t) \/ lists_dep sec ds t).
    { intros sec t. unfold lists_dep. split.
      - intros (y & [<-|I] & H); [left; exact H|right; exists y; split; assumption].
      - intros [H|(y & I & H)]; [exists d; split; [left; reflexivity|exact H]|exists y; split; [right; exact I|exact H]]. }
    assert (Sg : (build_section (d_type d) /\ ~ test_section (d_type d)
                   /\ add_dep_edge n g d = {| g_stats := g_stats g; g_names := g_names g; g_build := add_edge x (g_build g); g_test := g_test g |})
              \/ (~ build_section (d_type d) /\ test_section (d_type d)
                   /\ add_dep_edge n g d = {| g_stats := g_stats g; g_names := g_names g; g_build := g_build g; g_test := add_edge x (g_test g) |})
              \/ (~ build_section (d_type d) /\ ~ test_section (d_type d) /\ add_dep_edge n g d = g)).
    { unfold add_dep_edge, build_section, test_section, x. cbv zeta. destruct (d_type d);
        [left|left|right; left|right; right|right; right|right; left];
        (split; [intuition congruence|]; split; [intuition congruence|reflexivity]). }
    destruct Sg as [(S1 & S2 & E)|[(S1 & S2 & E)|(S1 & S2 & E)]]; rewrite E.
    + destruct (IH {| g_stats := g_stats g; g_names := g_names g; g_build := add_edge x (g_build g); g_test := g_test g |}) as (A1 & A2 & A3 & A4).
      * cbn [g_build]. intros m t I H. apply HB in I. destruct I as [I|I]; [exact (B m t I H)|]. injection I as <- _. reflexivity.
      * exact T.
      * cbv zeta in A1, A2, A3, A4. cbn [g_stats g_names g_build g_test] in *. rewrite A1, A2.
        split; [reflexivity|]. split; [reflexivity|]. split; intros e.
        -- rewrite A3, HB, C. destruct e as [m t]. cbn [fst snd]. unfold x. split.
           ++ intros [[H|H]|H]; [left; exact H| |].
              ** injection H as -> ->. right. split; [reflexivity|]. left. split; [exact S1|reflexivity].
              ** right. split; [apply H|right; apply H].
           ++ intros [H|(-> & [[_ H]|H])]; [left; left; exact H|left; right; subst t; reflexivity|right; split; [reflexivity|exact H]].
        -- rewrite A4, C. split.
           ++ intros [H|H]; [left; exact H|]. right. split; [apply H|right; apply H].
           ++ intros [H|(H1 & [[H _]|H])]; [left; exact H|contradiction|right; split; assumption].
    + destruct (IH {| g_stats := g_stats g; g_names := g_names g; g_build := g_build g; g_test := add_edge x (g_test g) |}) as (A1 & A2 & A3 & A4).
      * exact B.
      * cbn [g_test]. intros m t I H. apply HT in I. destruct I as [I|I]; [exact (T m t I H)|]. injection I as <- _. reflexivity.
      * cbv zeta in A1, A2, A3, A4. cbn [g_stats g_names g_build g_test] in *. rewrite A1, A2.
        split; [reflexivity|]. split; [reflexivity|]. split; intros e.
        -- rewrite A3, C. split.
           ++ intros [H|H]; [left; exact H|]. right. split; [apply H|right; apply H].
           ++ intros [H|(H1 & [[H _]|H])]; [left; exact H|contradiction|right; split; assumption].
        -- rewrite A4, HT, C. destruct e as [m t]. cbn [fst snd]. unfold x. split.
           ++ intros [[H|H]|H]; [left; exact H| |].
              ** injection H as -> ->. right. split; [reflexivity|]. left. split; [exact S2|reflexivity].
              ** right. split; [apply H|right; apply H].
           ++ intros [H|(-> & [[_ H]|H])]; [left; left; exact H|left; right; subst t; reflexivity|right; split; [reflexivity|exact H]].
    + destruct (IH g B T) as (A1 & A2 & A3 & A4). cbv zeta in *. rewrite A1, A2.
      split; [reflexivity|]. split; [reflexivity|]. split; intros e.
      * rewrite A3, C. split.
        -- intros [H|H]; [left; exact H|]. right. split; [apply H|right; apply H].
        -- intros [H|(H1 & [[H _]|H])]; [left; exact H|contradiction|right; split; assumption].
      * rewrite A4, C. split.
        -- intros [H|H]; [left; exact H|]. right. split; [apply H|right; apply H].
        -- intros [H|(H1 & [[H _]|H])]; [left; exact H|contradiction|right; split; assumption].
Qed.

(** What is known after some definitions. *)
Record graph_inv (l : list definition) (g : graph) : Prop := {
  gi_names : forall n sha, In (n, sha) (g_names g) <-> exists d, first_in l d /\ def_name d = n /\ def_recipe d = sha;
  gi_distinct : distinct_names (map fst (g_names g));
  gi_known : forall x, In x l -> exists n sha, In (n, sha) (g_names g) /\ same_name n (def_name x);
  gi_count : st_packages (g_stats g) = length (g_names g);
  gi_build : forall n t, In (n, t) (g_build g) <-> exists d, first_in l d /\ def_name d = n /\ lists_dep build_section (def_deps d) t;
  gi_test : forall n t, In (n, t) (g_test g) <-> exists d, first_in l d /\ def_name d = n /\ lists_dep test_section (def_deps d) t;
  gi_dup : forall n, (exists x, In x (st_duplicates (g_stats g)) /\ same_name x n) <-> twice_in l n;
  gi_dup_distinct : distinct_names (st_duplicates (g_stats g))
}.
Lemma distinct_names_snoc l x : distinct_names l -> (forall y, In y l -> ~ same_name y x) -> distinct_names (l ++ [x]).
Proof.
  unfold distinct_names. induction l as [|y l IH]; intros D N; cbn [app].
  - constructor; constructor.
  - inversion D as [|? ? Dy Dl]. subst. constructor.
    + apply Forall_app. split; [exact Dy|]. constructor; [|constructor]. apply N. left. reflexivity.
    + apply IH; [exact Dl|]. intros z I. apply N. right. exact I.
Qed.
Lemma add_package_inv l g sha n ds : graph_inv l g -> graph_inv (l ++ [(sha, n, ds)]) (add_package sha g (n, ds)).
Proof.
  intros [Nm Di Kn Ct Bu Te Du Dd]. unfold add_package. cbn [fst snd].
  destruct (assoc_prim n (g_names g)) as [s|] eqn:A.
  - assert (K : exists m s', In (m, s') (g_names g) /\ same_name n m).
    { destruct (List.existsb (fun kv => prim_eqb n (fst kv)) (g_names g)) eqn:X.
      - apply existsb_exists in X. destruct X as ([m s'] & I & H). exists m, s'. split; assumption.
      - exfalso. assert (Z : assoc_prim n (g_names g) = None); [|congruence]. apply assoc_name. intros k v I H.
        assert (Y : List.existsb (fun kv => prim_eqb n (fst kv)) (g_names g) = true); [|congruence].
        apply existsb_exists. exists (k, v). split; [exact I|exact H]. }
    destruct K as (m & s' & I & H).
    assert (P : exists y, In y l /\ same_name (def_name y) n).
    { apply Nm in I. destruct I as (d & (a & b & -> & _) & <- & _). exists d. split; [apply in_or_app; right; left; reflexivity|apply name_sym; exact H]. }
    assert (F : forall d, first_in (l ++ [(sha, n, ds)]) d <-> first_in l d).
    { intros d. rewrite first_snoc. split; [|intros X; left; exact X]. intros [X|(-> & X)]; [exact X|].
      destruct P as (y & Iy & Hy). exfalso. exact (X y Iy Hy). }
    constructor; cbn [g_stats g_names g_build g_test add_duplicate st_duplicates st_packages].
    + intros n' sha'. rewrite Nm. split; intros (d & X & Y); exists d; (split; [apply F; exact X|exact Y]).
    + exact Di.
    + intros x Ix. apply in_app_or in Ix. destruct Ix as [Ix|[<-|[]]]; [exact (Kn x Ix)|]. exists m, s'.
      split; [exact I|apply name_sym; exact H].
    + exact Ct.
    + intros n' t. rewrite Bu. split; intros (d & X & Y); exists d; (split; [apply F; exact X|exact Y]).
    + intros n' t. rewrite Te. split; intros (d & X & Y); exists d; (split; [apply F; exact X|exact Y]).
    + intros n'. rewrite twice_snoc, <- Du. cbn [def_name fst snd]. unfold def_name at 1. cbn [fst snd].
      unfold pmem_prim. destruct (existsb (prim_eqb n) (st_duplicates (g_stats g))) eqn:X.
      * split; [intros Y; left; exact Y|]. intros [Y|[Y _]]; [exact Y|].
        apply existsb_exists in X. destruct X as (z & Iz & Hz). exists z. split; [exact Iz|].
        exact (name_trans _ _ _ (name_sym _ _ Hz) Y).
      * split.
        -- intros (z & Iz & Hz). apply in_app_or in Iz. destruct Iz as [Iz|[<-|[]]]; [left; exists z; split; assumption|]. right.
           split; [exact Hz|]. destruct P as (y & Iy & Hy). exists y. split; [exact Iy|]. exact (name_trans _ _ _ Hy Hz).
        -- intros [(z & Iz & Hz)|[Y _]]; [exists z; split; [apply in_or_app; left; exact Iz|exact Hz]|].
           exists n. split; [apply in_or_app; right; left; reflexivity|exact Y].
    + unfold pmem_prim. destruct (existsb (prim_eqb n) (st_duplicates (g_stats g))) eqn:X; [exact Dd|]. apply distinct_names_snoc; [exact Dd|].
      intros y Iy Hy. assert (Z : existsb (prim_eqb n) (st_duplicates (g_stats g)) = true); [|congruence].
      apply existsb_exists. exists y. split; [exact Iy|]. apply name_sym. exact Hy.
  - assert (A' : forall k v, In (k, v) (g_names g) -> ~ same_name n k) by (apply assoc_name; exact A).
    assert (P : forall y, In y l -> ~ same_name (def_name y) n).
    { intros y Iy Hy. destruct (Kn y Iy) as (m & s & I & H). apply (A' m s I). apply name_sym. exact (name_trans _ _ _ H Hy). }
    assert (F : forall d, first_in (l ++ [(sha, n, ds)]) d <-> first_in l d \/ d = (sha, n, ds)).
    { intros d. rewrite first_snoc. split; (intros [X|X]; [left; exact X|right]); [apply X|]. split; [exact X|exact P]. }
    assert (NF : forall d, first_in l d -> ~ same_name n (def_name d)).
    { intros d (a & b & -> & _) H. apply (P d); [apply in_or_app; right; left; reflexivity|apply name_sym; exact H]. }
    destruct (dep_edges n ds {| g_stats := count_package (g_stats g); g_names := g_names g ++ [(n, sha)]; g_build := g_build g; g_test := g_test g |})
      as (A1 & A2 & A3 & A4).
    { cbn [g_build]. intros m t I H. apply Bu in I. destruct I as (d & X & <- & _). exfalso. exact (NF d X H). }
    { cbn [g_test]. intros m t I H. apply Te in I. destruct I as (d & X & <- & _). exfalso. exact (NF d X H). }
    cbv zeta in A1, A2, A3, A4. cbn [g_stats g_names g_build g_test] in *.
    set (g' := fold_left _ ds _) in *. clearbody g'.
    constructor; rewrite ?A1, ?A2; cbn [count_package st_packages st_duplicates].
    + intros n' sha'. rewrite in_app_iff, Nm. split.
      * intros [(d & X & Y)|[X|[]]].
        -- exists d. split; [apply F; left; exact X|exact Y].
        -- injection X as <- <-. exists (sha, n, ds). split; [apply F; right; reflexivity|split; reflexivity].
      * intros (d & X & Y). apply F in X. destruct X as [X| ->]; [left; exists d; split; assumption|right; left].
        destruct Y as [<- <-]. reflexivity.
    + rewrite map_app. apply distinct_names_snoc; [exact Di|]. intros y Iy Hy. apply in_map_iff in Iy. destruct Iy as ([k v] & <- & Iy).
      apply (A' k v Iy). apply name_sym. exact Hy.
    + intros x Ix. apply in_app_or in Ix. destruct Ix as [Ix|[<-|[]]].
      * destruct (Kn x Ix) as (m & s & I & H). exists m, s. split; [apply in_or_app; left; exact I|exact H].
      * exists n, sha. split; [apply in_or_app; right; left; reflexivity|apply name_refl].
    + rewrite Ct, app_length. cbn [length]. lia.
    + intros n' t. rewrite A3, Bu. cbn [fst snd]. split.
      * intros [(d & X & Y)|[-> Y]]; [exists d; split; [apply F; left; exact X|exact Y]|].
        exists (sha, n, ds). split; [apply F; right; reflexivity|]. split; [reflexivity|exact Y].
      * intros (d & X & Y & Z). apply F in X. destruct X as [X| ->]; [left; exists d; split; [exact X|split; assumption]|right].
        split; [symmetry; exact Y|exact Z].
    + intros n' t. rewrite A4, Te. cbn [fst snd]. split.
      * intros [(d & X & Y)|[-> Y]]; [exists d; split; [apply F; left; exact X|exact Y]|].
        exists (sha, n, ds). split; [apply F; right; reflexivity|]. split; [reflexivity|exact Y].
      * intros (d & X & Y & Z). apply F in X. destruct X as [X| ->]; [left; exists d; split; [exact X|split; assumption]|right].
        split; [symmetry; exact Y|exact Z].
    + intros n'. rewrite twice_snoc, <- Du. unfold def_name at 1. cbn [fst snd]. split; [intros X; left; exact X|]. intros [X|[X (y & Iy & Hy)]]; [exact X|].
      exfalso. apply (P y Iy). apply (name_trans _ _ _ Hy). apply name_sym. exact X.
    + exact Dd.
Qed.
Lemma add_packages_inv sha : forall m l g, graph_inv l g ->
  graph_inv (l ++ map (fun p => (sha, fst p, snd p)) m) (fold_left (add_package sha) m g).
Proof.
  induction m as [|[n ds] m IH]; intros l g I; cbn [fold_left map fst snd].
  - rewrite app_nil_r. exact I.
  - change ((sha, n, ds) :: map (fun p => (sha, fst p, snd p)) m) with ([(sha, n, ds)] ++ map (fun p => (sha, fst p, snd p)) m).
    rewrite app_assoc. apply IH. apply add_package_inv. exact I.
Qed.
Lemma add_recipes_inv : forall cache l g, graph_inv l g -> graph_inv (l ++ definitions cache) (fold_left add_recipe cache g).
Proof.
  induction cache as [|[sha x] cache IH]; intros l g I; cbn [fold_left].
  - unfold definitions. cbn [flat_map]. rewrite app_nil_r. exact I.
  - unfold definitions. cbn [flat_map fst snd]. fold (definitions cache). rewrite app_assoc. apply IH. unfold add_recipe. cbn [fst snd].
    destruct (rd_deps x) as [m|e]; [apply add_packages_inv; exact I|]. rewrite app_nil_r.
    destruct I as [Nm Di Kn Ct Bu Te Du Dd]. constructor; assumption.
Qed.
Lemma new_graph_inv cache failed : graph_inv (definitions cache) (new_graph cache failed).
Proof.
  unfold new_graph. apply (add_recipes_inv cache []). constructor; cbn [g_stats g_names g_build g_test st_duplicates st_packages].
  - intros n sha. split; [intros []|]. intros (d & (a & b & E & _) & _). destruct a; discriminate.
  - constructor.
  - intros x [].
  - reflexivity.
  - intros n t. split; [intros []|]. intros (d & (a & b & E & _) & _). destruct a; discriminate.
  - intros n t. split; [intros []|]. intros (d & (a & b & E & _) & _). destruct a; discriminate.
  - intros n. split; [intros (x & [] & _)|]. intros (a & d & b & d' & c & E & _). destruct a; discriminate.
  - constructor.
Qed.
Lemma c52_owners cache failed n sha :
  In (n, sha) (g_names (new_graph cache failed)) <-> exists d, first_definition cache d /\ def_name d = n /\ def_recipe d = sha.
Proof. exact (gi_names _ _ (new_graph_inv cache failed) n sha). Qed.
Lemma c52_once cache failed : distinct_names (map fst (g_names (new_graph cache failed))).
Proof. exact (gi_distinct _ _ (new_graph_inv cache failed)). Qed.
Lemma c52_build cache failed n t :
  In (n, t) (g_build (new_graph cache failed)) <-> exists d, first_definition cache d /\ def_name d = n /\ lists_dep build_section (def_deps d) t.
Proof. exact (gi_build _ _ (new_graph_inv cache failed) n t). Qed.
Lemma c52_test cache failed n t :
  In (n, t) (g_test (new_graph cache failed)) <-> exists d, first_definition cache d /\ def_name d = n /\ lists_dep test_section (def_deps d) t.
Proof. exact (gi_test _ _ (new_graph_inv cache failed) n t). Qed.
Lemma c52_duplicates cache failed n :
  (exists x, In x (st_duplicates (g_stats (new_graph cache failed))) /\ same_name x n) <-> defined_twice cache n.
Proof. exact (gi_dup _ _ (new_graph_inv cache failed) n). Qed.
Lemma c52_contains cache failed p : contains_package_name p (new_graph cache failed) = true
  <-> exists d, In d (definitions cache) /\ def_name d = PStr p.
Proof.
  pose proof (new_graph_inv cache failed) as I. unfold contains_package_name.
  assert (PS : forall x, same_name x (PStr p) -> x = PStr p).
  { intros x H. apply name_sym in H. apply prim_eqb_str_l in H. exact H. }
  destruct (assoc_prim (PStr p) (g_names (new_graph cache failed))) as [s|] eqn:A.
  - split; [intros _|reflexivity].
    assert (K : ~ forall k v, In (k, v) (g_names (new_graph cache failed)) -> ~ same_name (PStr p) k).
    { intros H. apply assoc_name in H. congruence. }
    assert (X : exists k v, In (k, v) (g_names (new_graph cache failed)) /\ same_name (PStr p) k).
    { destruct (existsb (fun kv => prim_eqb (PStr p) (fst kv)) (g_names (new_graph cache failed))) eqn:X.
      - apply existsb_exists in X. destruct X as ([k v] & Ik & H). exists k, v. split; assumption.
      - exfalso. apply K. intros k v Ik H. assert (Y : existsb (fun kv => prim_eqb (PStr p) (fst kv)) (g_names (new_graph cache failed)) = true); [|congruence].
        apply existsb_exists. exists (k, v). split; [exact Ik|exact H]. }
    destruct X as (k & v & Ik & H). apply (gi_names _ _ I) in Ik. destruct Ik as (d & (a & b & E & _) & <- & _). exists d. split.
    + rewrite E. apply in_or_app. right. left. reflexivity.
    + apply PS. apply name_sym. exact H.
  - split; [discriminate|]. intros (d & Id & H). exfalso. destruct (gi_known _ _ I d Id) as (k & v & Ik & E).
    rewrite assoc_name in A. apply (A k v Ik). rewrite H in E. apply name_sym. exact E.
Qed.

(** * Statistics *)
Lemma add_dep_edges_stats n : forall ds g, g_stats (fold_left (add_dep_edge n) ds g) = g_stats g.
Proof.
  induction ds as [|d ds IH]; intros g; cbn [fold_left]; [reflexivity|]. rewrite IH. unfold add_dep_edge. cbv zeta. destruct (d_type d); reflexivity.
Qed.
Lemma add_packages_stats sha : forall m g, let s := g_stats (fold_left (add_package sha) m g) in
  st_failed s = st_failed (g_stats g) /\ st_failed_deps s = st_failed_deps (g_stats g)
  /\ st_parsed s = st_parsed (g_stats g) /\ st_recipes s = st_recipes (g_stats g).
Proof.
  cbv zeta. induction m as [|kv m IH]; intros g; cbn [fold_left]; [repeat split|].
  destruct (IH (add_package sha g kv)) as (A & B & C & D). rewrite A, B, C, D. unfold add_package.
  destruct (assoc_prim (fst kv) (g_names g)); [repeat split|]. rewrite add_dep_edges_stats. repeat split.
Qed.
Lemma add_recipes_stats : forall cache g, NoDup (map fst cache) -> (forall k, In k (map fst cache) -> ~ In k (dkeys (st_failed_deps (g_stats g)))) ->
  let s := g_stats (fold_left add_recipe cache g) in
  st_failed s = st_failed (g_stats g) /\ st_parsed s = st_parsed (g_stats g) /\ st_recipes s = st_recipes (g_stats g)
  /\ st_failed_deps s = st_failed_deps (g_stats g)
       ++ flat_map (fun kv => match rd_deps (snd kv) with
                              | Ok _ => []
                              | Err _ => [(fst kv, match rd_names (snd kv) with Ok tbl => map fst tbl | Err _ => [PStr $"Unknown"] end)]
                              end) cache.
Proof.
  cbv zeta. induction cache as [|[sha x] cache IH]; intros g N F; cbn [fold_left flat_map].
  - rewrite app_nil_r. repeat split.
  - cbn [map fst] in N, F. inversion N as [|? ? N1 N2]. subst. unfold add_recipe at 2 4 6 8. cbn [fst snd].
    destruct (rd_deps x) as [m|e] eqn:E.
    + destruct (add_packages_stats sha m g) as (A & B & C & D). cbv zeta in A, B, C, D.
      destruct (IH (fold_left (add_package sha) m g) N2) as (A2 & B2 & C2 & D2).
      * intros k I. rewrite B. apply F. right. exact I.
      * unfold add_recipe in *. cbn [fst snd] in *. rewrite A2, B2, C2, D2, A, B, C, D. repeat split.
    + destruct (IH (add_failure sha (rd_names x) g) N2) as (A2 & B2 & C2 & D2).
      * intros k I. unfold add_failure. cbn [g_stats st_failed_deps]. unfold dkeys. intros H.
        assert (H' : In k (dkeys (st_failed_deps (g_stats g))) \/ k = sha).
        { revert H. generalize (st_failed_deps (g_stats g)) as d. intros d. induction d as [|[k' v'] d IHd]; cbn [dset map fst In].
          - intros [H|[]]. right. congruence.
          - destruct (str_eqb sha k') eqn:Q; cbn [map fst In]; [intros [H|H]; left; [left; exact H|right; exact H]|].
            intros [H|H]; [left; left; exact H|]. destruct (IHd H) as [Z|Z]; [left; right; exact Z|right; exact Z]. }
        destruct H' as [H'|H']; [exact (F k (or_intror I) H')|]. subst k. contradiction.
      * rewrite A2, B2, C2, D2. unfold add_failure. cbn [g_stats st_failed st_parsed st_recipes st_failed_deps].
        split; [reflexivity|]. split; [reflexivity|]. split; [reflexivity|].
        assert (Z : forall v (d : sdict (list prim)), ~ In sha (dkeys d) -> dset sha v d = d ++ [(sha, v)]).
        { intros v d. unfold dkeys. induction d as [|[k' v'] d IHd]; intros Q; [reflexivity|]. cbn [dset app]. destruct (str_eqb sha k') eqn:R.
          - apply str_eqb_eq in R. subst k'. exfalso. apply Q. left. reflexivity.
          - rewrite IHd; [reflexivity|]. intros X. apply Q. right. exact X. }
        rewrite Z; [rewrite <- app_assoc; reflexivity|]. apply F. left. reflexivity.
Qed.
Lemma new_graph_stats cache failed : NoDup (map fst cache) -> let s := g_stats (new_graph cache failed) in
  st_failed s = failed /\ st_parsed s = length cache /\ st_recipes s = length cache + length failed
  /\ NoDup (dkeys (st_failed_deps s)) /\ (forall sha, In sha (dkeys (st_failed_deps s)) <-> unreadable_deps cache sha).
Proof.
  intros N. unfold new_graph. cbv zeta.
  match goal with |- context [fold_left add_recipe cache ?g] => destruct (add_recipes_stats cache g N (fun k _ H => H)) as (A & B & C & D) end.
  cbv zeta in A, B, C, D. cbn [g_stats st_failed st_parsed st_recipes st_failed_deps app] in *. rewrite A, B, C, D.
  split; [reflexivity|]. split; [reflexivity|]. split; [reflexivity|]. unfold dkeys. clear A B C D.
  assert (K : forall c, (forall sha, In sha (map fst (flat_map (fun kv : str * recipe_deps => match rd_deps (snd kv) with
                              | Ok _ => []
                              | Err _ => [(fst kv, match rd_names (snd kv) with Ok tbl => map fst tbl | Err _ => [PStr $"Unknown"] end)]
                              end) c)) <-> unreadable_deps c sha)).
  { intros c sha. unfold unreadable_deps. rewrite in_map_iff. split.
    - intros ([k v] & <- & I). apply in_flat_map in I. destruct I as ([k' x] & I & H). cbn [fst snd] in *.
      destruct (rd_deps x) as [m|e] eqn:E; [destruct H|]. destruct H as [H|[]]. injection H as <- _. exists x, e. split; assumption.
    - intros (x & e & I & H). eexists. split; [|apply in_flat_map; exists (sha, x); split; [exact I|cbn [fst snd]; rewrite H; left; reflexivity]].
      reflexivity. }
  split; [|apply K].
  induction cache as [|[k x] cache IH]; cbn [flat_map fst snd]; [constructor|]. cbn [map fst] in N. inversion N as [|? ? N1 N2]. subst.
  destruct (rd_deps x) as [m|e]; cbn [app]; [apply IH; exact N2|]. cbn [map fst]. constructor; [|apply IH; exact N2].
  intros I. apply K in I. destruct I as (y & e' & I & _). apply N1. apply in_map_iff. exists (k, y). split; [reflexivity|exact I].
Qed.
Lemma c53_packages cache failed : st_packages (g_stats (new_graph cache failed)) = length (g_names (new_graph cache failed)).
Proof. exact (gi_count _ _ (new_graph_inv cache failed)). Qed.

(** ** From disk *)
Lemma sort_results E MS hash : forall files cache failed,
  NoDup (map fst cache) -> NoDup failed ->
  let '(cache', failed') := fold_left (sort_result E MS) (map (read_and_parse E hash) files) (cache, failed) in
  NoDup (map fst cache') /\ NoDup failed'
  /\ (forall p, In p failed' <-> In p failed \/ exists f, In f files /\ fails E f /\ rf_path f = p)
  /\ (forall k, In k (map fst cache') <-> In k (map fst cache) \/ exists f r, In f files /\ parses E f r /\ calc_sha256 hash E r = k)
  /\ length cache' + length failed' <= length cache + length failed + length files.
Proof.
  induction files as [|f files IH]; intros cache failed N1 N2; cbn [map fold_left].
  - split; [exact N1|]. split; [exact N2|]. split; [intros p; split; [intros H; left; exact H|intros [H|(f & [] & _)]; exact H]|].
    split; [intros p; split; [intros H; left; exact H|intros [H|(f & r & [] & _)]; exact H]|]. cbn [length]. lia.
  - assert (Q : (exists r, parses E f r /\ read_and_parse E hash f = (calc_sha256 hash E r, Some r) /\ (~ fails E f) /\ forall r', parses E f r' -> r' = r)
                \/ (fails E f /\ read_and_parse E hash f = (rf_path f, None) /\ forall r, ~ parses E f r)).
    { unfold read_and_parse, parses, fails. destruct (rf_content f) as [text|]; [destruct (new_recipe E text) as [r|e] eqn:Ne|].
      - left. exists r. split; [exists text; split; [reflexivity|exact Ne]|]. split; [reflexivity|]. split.
        + intros [H|(t & e & H & H2)]; [discriminate|]. injection H as <-. congruence.
        + intros r' (t & H & H2). injection H as <-. congruence.
      - right. split; [right; exists text, e; split; [reflexivity|exact Ne]|]. split; [reflexivity|].
        intros r (t & H & H2). injection H as <-. congruence.
      - right. split; [left; reflexivity|]. split; [reflexivity|]. intros r (t & H & _). discriminate. }
    destruct Q as [(r & Pr & E1 & Nf & Un)|(Fa & E1 & Np)]; rewrite E1; unfold sort_result at 2; cbn [fst snd].
    + specialize (IH (dset (calc_sha256 hash E r) (deps_of_recipe E MS r) cache) failed).
      destruct (fold_left (sort_result E MS) _ _) as [cache' failed']. destruct IH as (A & B & C & D & L).
      * exact (dset_NoDup _ _ _ N1).
      * exact N2.
      * split; [exact A|]. split; [exact B|]. split; [|split].
        -- intros p. rewrite C. split.
           ++ intros [H|(g & I & H)]; [left; exact H|right; exists g; split; [right; exact I|exact H]].
           ++ intros [H|(g & [<-|I] & H)]; [left; exact H|exfalso; apply Nf; apply H|right; exists g; split; assumption].
        -- intros k. rewrite D. assert (Kk : In k (map fst (dset (calc_sha256 hash E r) (deps_of_recipe E MS r) cache)) <-> In k (map fst cache) \/ calc_sha256 hash E r = k).
           { change (map fst (dset (calc_sha256 hash E r) (deps_of_recipe E MS r) cache)) with (dkeys (dset (calc_sha256 hash E r) (deps_of_recipe E MS r) cache)).
             rewrite dkeys_dset. destruct (dmem _ cache) eqn:M.
             - split; [intros H; left; exact H|]. intros [H|<-]; [exact H|]. unfold dmem in M. apply dget_In. destruct (dget _ cache); congruence.
             - rewrite in_app_iff. cbn [In]. unfold dkeys. split; intros [H|H]; auto. destruct H as [H|[]]; auto. }
           rewrite Kk. split.
           ++ intros [[H|H]|(g & r' & I & H)]; [left; exact H|right; exists f, r; split; [left; reflexivity|split; assumption]|].
              right. exists g, r'. split; [right; exact I|exact H].
           ++ intros [H|(g & r' & [<-|I] & H)]; [left; left; exact H| |right; exists g, r'; split; assumption].
              left. right. destruct H as [H1 H2]. rewrite (Un r' H1) in H2. exact H2.
        -- assert (Ln : length (dset (calc_sha256 hash E r) (deps_of_recipe E MS r) cache) <= S (length cache)).
           { rewrite <- (map_length fst (dset _ _ cache)). change (map fst (dset (calc_sha256 hash E r) (deps_of_recipe E MS r) cache)) with (dkeys (dset (calc_sha256 hash E r) (deps_of_recipe E MS r) cache)).
             rewrite dkeys_dset. unfold dkeys. destruct (dmem _ cache); rewrite ?app_length, map_length; cbn [length]; lia. }
           cbn [length]. lia.
    + specialize (IH cache (if mem_str (rf_path f) failed then failed else failed ++ [rf_path f])).
      assert (Nd : NoDup (if mem_str (rf_path f) failed then failed else failed ++ [rf_path f])).
      { destruct (mem_str (rf_path f) failed) eqn:M; [exact N2|]. 
        pose proof (Add_app (rf_path f) failed []) as Ad. rewrite app_nil_r in Ad. apply (proj2 (NoDup_Add Ad)). split; [exact N2|].
        intros I. apply mem_str_In in I. congruence. }
      destruct (fold_left (sort_result E MS) _ _) as [cache' failed']. destruct (IH N1 Nd) as (A & B & C & D & L).
      split; [exact A|]. split; [exact B|]. split; [|split].
      * intros p. rewrite C. assert (Pp : In p (if mem_str (rf_path f) failed then failed else failed ++ [rf_path f]) <-> In p failed \/ rf_path f = p).
        { destruct (mem_str (rf_path f) failed) eqn:M.
          - apply mem_str_In in M. split; [intros H; left; exact H|]. intros [H|<-]; assumption.
          - rewrite in_app_iff. cbn [In]. split; intros [H|H]; auto. destruct H as [H|[]]; auto. }
        rewrite Pp. split.
        -- intros [[H|H]|(g & I & H)]; [left; exact H|right; exists f; split; [left; reflexivity|split; assumption]|].
           right. exists g. split; [right; exact I|exact H].
        -- intros [H|(g & [<-|I] & H)]; [left; left; exact H|left; right; apply H|right; exists g; split; assumption].
      * intros k. rewrite D. split.
        -- intros [H|(g & r & I & H)]; [left; exact H|right; exists g, r; split; [right; exact I|exact H]].
        -- intros [H|(g & r & [<-|I] & H)]; [left; exact H|exfalso; apply (Np r); apply H|right; exists g, r; split; assumption].
      * assert (Ln : length (if mem_str (rf_path f) failed then failed else failed ++ [rf_path f]) <= S (length failed)).
        { destruct (mem_str _ _); rewrite ?app_length; cbn [length]; lia. }
        cbn [length]. lia.
Qed.
Lemma c53_from_disk E MS hash files : let s := g_stats (graph_from_disk E MS hash files) in
  st_recipes s = st_parsed s + length (st_failed s)
  /\ NoDup (st_failed s) /\ (forall p, In p (st_failed s) <-> exists f, In f files /\ fails E f /\ rf_path f = p)
  /\ NoDup (dkeys (st_failed_deps s)) /\ st_recipes s <= length files.
Proof.
  unfold graph_from_disk. cbv zeta. pose proof (sort_results E MS hash files [] [] (NoDup_nil _) (NoDup_nil _)) as H.
  destruct (fold_left (sort_result E MS) (map (read_and_parse E hash) files) ([], [])) as [cache failed].
  destruct H as (A & B & C & D & L). destruct (new_graph_stats cache failed A) as (S1 & S2 & S3 & S4 & _). cbv zeta in *.
  rewrite S1, S2, S3. split; [reflexivity|]. split; [exact B|]. split.
  - intros p. rewrite C. split; [intros [[]|X]; exact X|intros X; right; exact X].
  - split; [exact S4|]. cbn [length] in L. lia.
Qed.
(** Different files count separately when their texts and paths differ. *)
Lemma map_NoDup_length {A B} (f : A -> B) (l : list A) m : NoDup (map f l) -> (forall x, In x l -> In (f x) m) -> length l <= length m.
Proof.
  intros N I. rewrite <- (map_length f l). apply NoDup_incl_length; [exact N|]. intros y Y. apply in_map_iff in Y. destruct Y as (x & <- & X). exact (I x X).
Qed.
Lemma c53_all_files E MS hash files : NoDup (map (fun f => fst (read_and_parse E hash f)) files) ->
  st_recipes (g_stats (graph_from_disk E MS hash files)) = length files.
Proof.
  intros N. unfold graph_from_disk.
  assert (G : forall files cache failed, NoDup (map (fun f => fst (read_and_parse E hash f)) files) ->
    (forall f, In f files -> ~ In (fst (read_and_parse E hash f)) (map fst cache ++ failed)) ->
    let '(cache', failed') := fold_left (sort_result E MS) (map (read_and_parse E hash) files) (cache, failed) in
    length cache' + length failed' = length cache + length failed + length files).
  { clear. induction files as [|f files IH]; intros cache failed N F; cbn [map fold_left]; [cbn [length]; lia|].
    cbn [map] in N. inversion N as [|? ? N1 N2]. subst.
    assert (Ff := F f (or_introl eq_refl)).
    unfold sort_result at 2. destruct (snd (read_and_parse E hash f)) as [r|] eqn:Q; cbn [fst snd].
    - specialize (IH (dset (fst (read_and_parse E hash f)) (deps_of_recipe E MS r) cache) failed N2).
      assert (M : dmem (fst (read_and_parse E hash f)) cache = false).
      { destruct (dmem (fst (read_and_parse E hash f)) cache) eqn:M; [|reflexivity]. exfalso. apply Ff. apply in_or_app. left.
        unfold dmem in M. apply dget_In. destruct (dget _ cache); congruence. }
      assert (Ky : map fst (dset (fst (read_and_parse E hash f)) (deps_of_recipe E MS r) cache) = map fst cache ++ [fst (read_and_parse E hash f)]).
      { pose proof (dkeys_dset (fst (read_and_parse E hash f)) (deps_of_recipe E MS r) cache) as K. rewrite M in K. exact K. }
      destruct (fold_left (sort_result E MS) _ _) as [cache' failed']. rewrite IH.
      + rewrite <- (map_length fst (dset _ _ cache)), Ky, app_length, map_length. cbn [length]. lia.
      + intros g I H. rewrite Ky in H. apply in_app_or in H. destruct H as [H|H].
        * apply in_app_or in H. destruct H as [H|[H|[]]]; [apply (F g (or_intror I)); apply in_or_app; left; exact H|].
          apply N1. apply in_map_iff. exists g. split; [congruence|exact I].
        * apply (F g (or_intror I)). apply in_or_app. right. exact H.
    - assert (M : mem_str (fst (read_and_parse E hash f)) failed = false).
      { destruct (mem_str (fst (read_and_parse E hash f)) failed) eqn:M; [|reflexivity]. exfalso. apply Ff. apply in_or_app. right. apply mem_str_In. exact M. }
      rewrite M. specialize (IH cache (failed ++ [fst (read_and_parse E hash f)]) N2).
      destruct (fold_left (sort_result E MS) _ _) as [cache' failed']. rewrite IH.
      + rewrite app_length. cbn [length]. lia.
      + intros g I H. rewrite app_assoc in H. apply in_app_or in H. destruct H as [H|[H|[]]]; [exact (F g (or_intror I) H)|].
        apply N1. apply in_map_iff. exists g. split; [congruence|exact I]. }
  specialize (G files [] [] N (fun f _ H => H)).
  pose proof (sort_results E MS hash files [] [] (NoDup_nil _) (NoDup_nil _)) as H.
  destruct (fold_left (sort_result E MS) (map (read_and_parse E hash) files) ([], [])) as [cache failed].
  destruct H as (A & _). destruct (new_graph_stats cache failed A) as (_ & _ & S3 & _). cbv zeta in S3. rewrite S3. cbn [length] in G. lia.
Qed.

(** * Build configurations *)
Lemma applies_fits q e : applies q e = true <-> fits q e.
Proof.
  unfold applies, fits. destruct (ce_selector e) as [s|].
  - split; [intros H; right; exists s; split; [reflexivity|exact H]|]. intros [H|(s' & H & H2)]; [discriminate|]. congruence.
  - split; [intros _; left; reflexivity|reflexivity].
Qed.
Lemma first_entry_spec q l v : first_entry q l = Some v <-> first_fitting q l v.
Proof.
  unfold first_fitting. induction l as [|e l IH]; cbn [first_entry].
  - split; [discriminate|]. intros (a & e & b & H & _). destruct a; discriminate.
  - destruct (applies q e) eqn:A.
    + apply applies_fits in A. split.
      * intros H. injection H as <-. exists [], e, l. split; [reflexivity|]. split; [reflexivity|]. split; [exact A|intros x []].
      * intros (a & e' & b & H & V & F & N). destruct a as [|y a].
        -- cbn [app] in H. injection H as -> ->. rewrite V. reflexivity.
        -- cbn [app] in H. injection H as -> ->. exfalso. exact (N y (or_introl eq_refl) A).
    + assert (NA : ~ fits q e) by (intros F; apply applies_fits in F; congruence). rewrite IH. split.
      * intros (a & e' & b & -> & V & F & N). exists (e :: a), e', b. split; [reflexivity|]. split; [exact V|]. split; [exact F|].
        intros x [<-|I]; [exact NA|exact (N x I)].
      * intros (a & e' & b & H & V & F & N). destruct a as [|y a]; cbn [app] in H; injection H as -> ->; [contradiction|].
        exists a, e', b. split; [reflexivity|]. split; [exact V|]. split; [exact F|]. intros x I. apply N. right. exact I.
Qed.
Lemma first_entry_none q l : first_entry q l = None <-> forall e, In e l -> ~ fits q e.
Proof.
  induction l as [|e l IH]; cbn [first_entry].
  - split; [intros _ e []|reflexivity].
  - destruct (applies q e) eqn:A.
    + apply applies_fits in A. split; [discriminate|]. intros H. exfalso. exact (H e (or_introl eq_refl) A).
    + rewrite IH. split.
      * intros H x [<-|I]; [|exact (H x I)]. intros F. apply applies_fits in F. congruence.
      * intros H x I. apply H. right. exact I.
Qed.
Lemma c51_value c variable q default entries :
  assoc_prim (PStr variable) (cbc_vars c) = Some entries ->
  (forall v, first_fitting q entries v -> get_cbc_variable_value c variable q default = Ok v)
  /\ ((forall e, In e entries -> ~ fits q e) ->
      get_cbc_variable_value c variable q default = match default with Some d => Ok d | None => Err EValue end).
Proof.
  intros A. unfold get_cbc_variable_value. rewrite A.
  assert (G : (forall v, first_fitting q entries v -> match first_entry q entries with Some v => Ok v | None => match default with None => Err EValue | Some d => Ok d end end = Ok v)
    /\ ((forall e, In e entries -> ~ fits q e) -> match first_entry q entries with Some v => Ok v | None => match default with None => Err EValue | Some d => Ok d end end
          = match default with Some d => Ok d | None => Err EValue end)).
  { split.
    - intros v H. apply first_entry_spec in H. rewrite H. reflexivity.
    - intros H. apply first_entry_none in H. rewrite H. destruct default; reflexivity. }
  destruct entries as [|[v [s|]] [|e2 es]]; exact G.
Qed.
Lemma c51_unknown c variable q default : (forall es, ~ In (PStr variable, es) (cbc_vars c)) ->
  get_cbc_variable_value c variable q default = match default with Some d => Ok d | None => Err EKey end.
Proof.
  intros N. unfold get_cbc_variable_value. assert (A : assoc_prim (PStr variable) (cbc_vars c) = None).
  { apply assoc_name. intros k v I H. apply prim_eqb_str_l in H. subst k. exact (N v I). }
  rewrite A. destruct default; reflexivity.
Qed.
Lemma c51_default c variable q d : exists v, get_cbc_variable_value c variable q (Some d) = Ok v.
Proof.
  unfold get_cbc_variable_value. destruct (assoc_prim _ _) as [es|]; [|exists d; reflexivity].
  destruct es as [|[v [s|]] [|e2 es]]; try (destruct (first_entry q _) as [w|]; [exists w|exists d]; reflexivity). exists v. reflexivity.
Qed.
(** ** The table *)
Lemma append_new k e t : (forall k' l, In (k', l) t -> ~ same_name k k') -> append_entry k e t = t ++ [(k, [e])].
Proof.
  induction t as [|[k' l] t IH]; intros N; cbn [append_entry app]; [reflexivity|].
  rewrite (proj2 (name_false k k') (N k' l (or_introl eq_refl))). rewrite IH; [reflexivity|]. intros k2 l2 I. apply (N k2 l2). right. exact I.
Qed.
Lemma append_last k e t l : (forall k' l, In (k', l) t -> ~ same_name k k') -> append_entry k e (t ++ [(k, l)]) = t ++ [(k, l ++ [e])].
Proof.
  induction t as [|[k' l'] t IH]; intros N; cbn [append_entry app].
  - rewrite (name_refl k). reflexivity.
  - rewrite (proj2 (name_false k k') (N k' l' (or_introl eq_refl))). rewrite IH; [reflexivity|]. intros k2 l2 I. apply (N k2 l2). right. exact I.
Qed.
Lemma selector_case r k i o : line_selector r k i o ->
  (match get_selector_at_path ($"/" ++ prim_str k ++ $"/" ++ str_of_nat i) None r with
   | Ok s => Ok (Some (selector_parser s SV0)) | Err EKey => Ok None | Err e => Err e end) = Ok o.
Proof. unfold line_selector. cbv zeta. intros [(s & E & ->)|(E & ->)]; rewrite E; reflexivity. Qed.
Lemma selector_case_inv r k i o :
  (match get_selector_at_path ($"/" ++ prim_str k ++ $"/" ++ str_of_nat i) None r with
   | Ok s => Ok (Some (selector_parser s SV0)) | Err EKey => Ok None | Err e => Err e end) = Ok o -> line_selector r k i o.
Proof.
  unfold line_selector. cbv zeta. destruct (get_selector_at_path _ None r) as [s|e]; intros H.
  - injection H as <-. left. exists s. split; reflexivity.
  - right. destruct e; try discriminate. injection H as <-. split; reflexivity.
Qed.
Lemma read_entries_more r k : forall vs i t l t', (forall k' l, In (k', l) t -> ~ same_name k k') ->
  read_entries r k i vs (t ++ [(k, l)]) = Ok t' -> exists es, entries_from r k i vs es /\ t' = t ++ [(k, l ++ es)].
Proof.
  induction vs as [|v vs IH]; intros i t l t' N H; cbn [read_entries] in H.
  - injection H as <-. exists []. split; [constructor|]. rewrite app_nil_r. reflexivity.
  - cbv zeta in H. match type of H with bind ?x _ = _ => destruct x as [o|e] eqn:E end; [|discriminate]. cbn [bind] in H.
    apply selector_case_inv in E. rewrite append_last in H by exact N. apply IH in H; [|exact N].
    destruct H as (es & F & ->). exists ({| ce_value := v; ce_selector := o |} :: es). split; [constructor; assumption|].
    rewrite <- app_assoc. reflexivity.
Qed.
Lemma read_variables_spec r : forall d t t', (forall k j k' l, In (k, j) d -> In (k', l) t -> ~ same_name k k') ->
  distinct_names (map fst d) -> read_variables r d t = Ok t' -> exists u, variables_of r d u /\ t' = t ++ u.
Proof.
  induction d as [|[k j] d IH]; intros t t' F D H.
  - cbn [read_variables] in H. injection H as <-. exists []. split; [constructor|]. rewrite app_nil_r. reflexivity.
  - cbn [map fst] in D. inversion D as [|? ? D1 D2]. subst.
    assert (Skip : (k = PStr $"zip_keys" \/ j = JList [] \/ (forall l, j <> JList l)) -> read_variables r d t = Ok t' ->
                   exists u, variables_of r ((k, j) :: d) u /\ t' = t ++ u).
    { intros C X. destruct (IH t t') as (u & U & ->); [intros k0 j0 k' l I; apply (F k0 j0); right; exact I|exact D2|exact X|].
      exists u. split; [constructor; assumption|reflexivity]. }
    destruct j as [p|vs|dd]; cbn [read_variables] in H; try (apply Skip; [right; right; intros l X; discriminate|exact H]).
    destruct (prim_eqb k (PStr $"zip_keys")) eqn:Z.
    + apply Skip; [|exact H]. left. rewrite prim_eqb_sym in Z. apply prim_eqb_str_l in Z. exact Z.
    + destruct vs as [|v vs].
      * cbn [read_entries bind] in H. apply Skip; [right; left; reflexivity|exact H].
      * match type of H with bind ?x _ = _ => destruct x as [t1|e] eqn:E end; [|discriminate]. cbn [bind] in H.
        cbn [read_entries] in E. cbv zeta in E. match type of E with bind ?x _ = _ => destruct x as [o|e] eqn:Q end; [|discriminate]. cbn [bind] in E.
        apply selector_case_inv in Q. rewrite append_new in E by (intros k' l I; apply (F k _ k' l (or_introl eq_refl) I)).
        apply read_entries_more in E; [|intros k' l I; apply (F k _ k' l (or_introl eq_refl) I)]. destruct E as (es & Es & ->).
        destruct (IH (t ++ [(k, [{| ce_value := v; ce_selector := o |}] ++ es)]) t') as (u & U & ->).
        -- intros k0 j0 k' l I J. apply in_app_or in J. destruct J as [J|[J|[]]]; [apply (F k0 j0 k' l); [right; exact I|exact J]|].
           injection J as <- _. rewrite Forall_forall in D1. intros X. apply (D1 k0); [apply in_map_iff; exists (k0, j0); split; [reflexivity|exact I]|].
           apply name_sym. exact X.
        -- exact D2.
        -- exact H.
        -- exists ((k, {| ce_value := v; ce_selector := o |} :: es) :: u). split; [|rewrite <- app_assoc; reflexivity].
           constructor; [|constructor; assumption|exact U]. intros X. subst k. rewrite (name_refl (PStr $"zip_keys")) in Z. discriminate.
Qed.
Lemma c51_table E r d c : get_value E (r_root r) $"/" None None = Ok (JDict d) -> distinct_names (map fst d) ->
  cbc_of_recipe E r = Ok c -> variables_of r d (cbc_vars c).
Proof.
  intros V D H. unfold cbc_of_recipe in H. rewrite V in H. cbn [bind] in H.
  destruct (read_variables r d []) as [t|e] eqn:R; [|discriminate]. cbn [bind] in H. injection H as <-. cbn [cbc_vars].
  apply read_variables_spec in R; [|intros k j k' l _ []|exact D]. destruct R as (u & U & ->). exact U.
Qed.
