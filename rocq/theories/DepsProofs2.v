(** Proofs: the paths of all dependencies (C90). *)
From Verif Require Import Lemmas DepsProofs PathProofs DepsSpec.

Lemma concat_res_in {A B} (f : A -> res (list B)) : forall l out, concat_res f l = Ok out ->
  Forall (fun x => exists a, f x = Ok a) l /\ (forall y, In y out <-> exists x a, In x l /\ f x = Ok a /\ In y a).
Proof.
  induction l as [|x l IH]; cbn [concat_res]; intros out H.
  - injection H as <-. split; [constructor|]. intros y. split; [intros []|intros (x & a & [] & _)].
  - destruct (f x) as [a|] eqn:F; [|discriminate]. cbn [bind] in H.
    destruct (concat_res f l) as [b|] eqn:C; [|discriminate]. cbn [bind] in H. injection H as <-.
    destruct (IH b eq_refl) as (H1 & H2). split; [constructor; eauto|]. intros y. rewrite in_app_iff, H2. split.
    + intros [H|(x' & a' & I & F' & Y)]; [exists x, a|exists x', a']; cbn; auto.
    + intros (x' & a' & [<-|I] & F' & Y); [left; congruence|right; eauto].
Qed.
Lemma member_len v n : json_len v = Ok n -> forall i, i < n <-> exists x, section_member v i x.
Proof.
  intros H i. destruct v as [p|l|d]; [destruct p; try discriminate|..]; cbn [json_len] in H; injection H as <-.
  - split.
    + intros L. destruct (nth_error s i) as [c|] eqn:X; [eexists; constructor; exact X|apply nth_error_None in X; lia].
    + intros (x & M). inversion M; subst. apply nth_error_Some. congruence.
  - split.
    + intros L. destruct (nth_error l i) as [c|] eqn:X; [eexists; constructor; exact X|apply nth_error_None in X; lia].
    + intros (x & M). inversion M; subst. apply nth_error_Some. congruence.
  - split.
    + intros L. destruct (nth_error d i) as [[k v]|] eqn:X; [eexists; econstructor; exact X|apply nth_error_None in X; lia].
    + intros (x & M). inversion M; subst. apply nth_error_Some. congruence.
Qed.
Lemma no_member i x : ~ section_member (JList []) i x.
Proof. intros H. inversion H; subst. destruct i; discriminate. Qed.
(** Reading with an empty list as the default: the members are those of the value that is there. *)
Lemma default_members E root path v i : get_value E root path (Some (JList [])) None = Ok v ->
  (exists x, section_member v i x) <-> (exists w x, get_value E root path None None = Ok w /\ section_member w i x).
Proof.
  unfold get_value. destruct (str_to_stack_path path) as [st|]; [|discriminate]. cbn [bind].
  destruct (traverse root st).
  - intros ->. split; [intros (x & H)|intros (w & x & [= <-] & H)]; eauto.
  - intros [= <-]. split; [intros (x & H); destruct (no_member _ _ H)|intros (w & x & H & _); discriminate].
Qed.
Lemma section_paths_in E r prefix sec out : section_paths E r prefix sec = Ok out -> forall p, In p out <->
  exists v i x, get_value E (r_root r) (prefix ++ $"/requirements/" ++ sec) None None = Ok v /\ section_member v i x
    /\ p = prefix ++ $"/requirements/" ++ sec ++ $"/" ++ str_of_nat i.
Proof.
  unfold section_paths. intros H p.
  destruct (get_value E (r_root r) _ (Some (JList [])) None) as [v|] eqn:G; [|discriminate]. cbn [bind] in H.
  destruct (json_len v) as [n|] eqn:N; [|discriminate]. cbn [bind] in H. injection H as <-.
  rewrite in_map_iff. split.
  - intros (i & <- & I). apply in_seq in I. assert (i < n) as L by lia. apply (member_len _ _ N) in L.
    apply (default_members _ _ _ _ _ G) in L as (w & x & G' & M). exists w, i, x. rewrite <- !app_assoc. auto.
  - intros (w & i & x & G' & M & ->). exists i. rewrite <- !app_assoc. split; [reflexivity|]. apply in_seq. split; [lia|].
    cbn [plus]. apply (member_len _ _ N). apply (default_members _ _ _ _ _ G). eauto.
Qed.
Lemma req_sections_spec sv : req_sections sv = requirement_sections sv.
Proof. destruct sv; reflexivity. Qed.
Lemma scan_in E r prefix out : scan_requirements E r prefix = Ok out -> forall p, In p out <->
  exists sec v i x, In sec (requirement_sections (r_schema r))
    /\ get_value E (r_root r) (prefix ++ $"/requirements/" ++ sec) None None = Ok v /\ section_member v i x
    /\ p = prefix ++ $"/requirements/" ++ sec ++ $"/" ++ str_of_nat i.
Proof.
  unfold scan_requirements. intros H p. apply concat_res_in in H as (_ & H). rewrite H, req_sections_spec. split.
  - intros (sec & a & I & F & Y). apply (section_paths_in _ _ _ _ _ F) in Y as (v & i & x & G & M & ->). exists sec, v, i, x. auto.
  - intros (sec & v & i & x & I & G & M & ->).
    assert (exists a, section_paths E r prefix sec = Ok a) as (a & F).
    { unfold section_paths. unfold get_value in *. destruct (str_to_stack_path _) as [st|]; [|discriminate]. cbn [bind] in *.
      destruct (traverse (r_root r) st); [|discriminate]. rewrite G. cbn [bind].
      assert (exists n, json_len v = Ok n) as (m & ->) by (inversion M; subst; cbn [json_len]; eauto). cbn [bind]. eauto. }
    exists sec, a. split; [exact I|]. split; [exact F|]. apply (section_paths_in _ _ _ _ _ F). eauto 8.
Qed.
Lemma c90_in E r out : get_dependency_paths E r = Ok out -> forall p, In p out <-> dependency_line_path E r p.
Proof.
  unfold get_dependency_paths. intros H p.
  destruct (scan_requirements E r []) as [a|] eqn:A; [|discriminate]. cbn [bind] in H.
  destruct (get_value E (r_root r) $"/outputs" (Some (JList [])) None) as [v|] eqn:G; [|discriminate]. cbn [bind] in H.
  destruct (json_len v) as [n|] eqn:N; [|discriminate]. cbn [bind] in H.
  destruct (concat_res _ (seq 0 n)) as [b|] eqn:B; [|discriminate]. cbn [bind] in H. injection H as <-.
  rewrite in_app_iff, (scan_in _ _ _ _ A). apply concat_res_in in B as (BF & BI). rewrite BI. split.
  - intros [(sec & w & i & x & I & Gw & M & ->)|(k & c & I & F & Y)].
    + apply (dlp E r [] sec w i x); auto. constructor.
    + apply (scan_in _ _ _ _ F) in Y as (sec & w & i & x & I' & Gw & M & ->). apply (dlp E r _ sec w i x); auto.
      apply in_seq in I. assert (k < n) as L by lia. apply (member_len _ _ N) in L.
      apply (default_members _ _ _ _ _ G) in L as (u & y & Gu & My). econstructor; eauto.
  - intros H. destruct H as [scope sec w i x S I Gw M]. destruct S as [|u k y Gu My].
    + left. exists sec, w, i, x. auto.
    + right. assert (k < n) as L by (apply (member_len _ _ N), (default_members _ _ _ _ _ G); eauto).
      assert (In k (seq 0 n)) as IK by (apply in_seq; lia).
      rewrite Forall_forall in BF. destruct (BF k IK) as (c & F). exists k, c. split; [exact IK|]. split; [exact F|].
      apply (scan_in _ _ _ _ F). exists sec, w, i, x. auto.
Qed.
Lemma path_text_inj a b : a <> [] -> b <> [] -> Forall component a -> Forall component b -> path_text a = path_text b -> a = b.
Proof.
  intros Na Nb Ca Cb H. pose proof (stack_of_path a Na Ca) as Sa. pose proof (stack_of_path b Nb Cb) as Sb. rewrite H, Sb in Sa.
  injection Sa as Sa. apply app_inj_tail in Sa as [Sa _]. rewrite <- (rev_involutive a), <- (rev_involutive b), Sa. reflexivity.
Qed.
Lemma sections_components sv sec : In sec (requirement_sections sv) -> component sec.
Proof.
  intros H. assert (~ In cSL sec /\ sec <> []) as (A & B); [|split; auto].
  destruct sv; cbn [requirement_sections In] in H; repeat (destruct H as [<-|H]; [split; [vm_compute; intuition discriminate|discriminate]|]); destruct H.
Qed.
Lemma line_path_text (scope : list str) sec i :
  path_text scope ++ $"/requirements/" ++ sec ++ $"/" ++ str_of_nat i = path_text (scope ++ [$"requirements"; sec; str_of_nat i]).
Proof. rewrite path_text_app. cbn [path_text]. rewrite app_nil_r. reflexivity. Qed.
Definition scope_of (o : option nat) : list str := match o with None => [] | Some k => [$"outputs"; str_of_nat k] end.
Lemma scope_text k : $"/outputs/" ++ str_of_nat k = path_text (scope_of (Some k)).
Proof. cbn [scope_of path_text]. rewrite app_nil_r. reflexivity. Qed.
Lemma number_inj i j : str_of_nat i = str_of_nat j -> i = j.
Proof. intros H. pose proof (str_of_nat_spec i) as (_ & A & _). pose proof (str_of_nat_spec j) as (_ & B & _). congruence. Qed.
Lemma line_path_inj sv o sec i o' sec' i' : In sec (requirement_sections sv) -> In sec' (requirement_sections sv) ->
  path_text (scope_of o ++ [$"requirements"; sec; str_of_nat i]) = path_text (scope_of o' ++ [$"requirements"; sec'; str_of_nat i']) ->
  o = o' /\ sec = sec' /\ i = i'.
Proof.
  intros S S' H. apply path_text_inj in H.
  - destruct o as [k|], o' as [k'|]; cbn [scope_of app] in H; try discriminate.
    + injection H as K -> I. apply number_inj in K, I. subst. auto.
    + injection H as -> I. apply number_inj in I. subst. auto.
  - destruct o; discriminate.
  - destruct o'; discriminate.
  - apply Forall_app. split; [destruct o; repeat constructor; try discriminate; try (vm_compute; intuition discriminate); apply (str_of_nat_spec n)|].
    repeat constructor; try discriminate; try (vm_compute; intuition discriminate); try apply (sections_components _ _ S); apply (str_of_nat_spec i).
  - apply Forall_app. split; [destruct o'; repeat constructor; try discriminate; try (vm_compute; intuition discriminate); apply (str_of_nat_spec n)|].
    repeat constructor; try discriminate; try (vm_compute; intuition discriminate); try apply (sections_components _ _ S'); apply (str_of_nat_spec i').
Qed.
Lemma nodup_app {A} (a b : list A) : NoDup a -> NoDup b -> (forall x, In x a -> ~ In x b) -> NoDup (a ++ b).
Proof.
  induction a as [|x a IH]; cbn [app]; intros Ha Hb D; auto. inversion Ha; subst. constructor.
  - rewrite in_app_iff. intros [H|H]; [contradiction|]. apply (D x); cbn; auto.
  - apply IH; auto. intros y Hy. apply D. cbn; auto.
Qed.
Lemma concat_res_nodup {A B} (f : A -> res (list B)) : forall l out, NoDup l -> concat_res f l = Ok out ->
  (forall x a, In x l -> f x = Ok a -> NoDup a) ->
  (forall x x' a a' y, In x l -> In x' l -> f x = Ok a -> f x' = Ok a' -> In y a -> In y a' -> x = x') -> NoDup out.
Proof.
  induction l as [|x l IH]; cbn [concat_res]; intros out ND H N D.
  - injection H as <-. constructor.
  - destruct (f x) as [a|] eqn:F; [|discriminate]. cbn [bind] in H.
    destruct (concat_res f l) as [b|] eqn:C; [|discriminate]. cbn [bind] in H. injection H as <-. inversion ND; subst.
    apply nodup_app; [eapply N; cbn; eauto| |].
    + apply IH; auto; intros; [eapply N|eapply D]; cbn; eauto.
    + intros y Ya Yb. apply concat_res_in in C as (_ & C). apply C in Yb as (x' & a' & I & F' & Y').
      assert (x = x') as -> by (eapply (D x x' a a' y); cbn; auto). contradiction.
Qed.
Lemma map_inj_nodup {A B} (f : A -> B) l : NoDup l -> (forall x y, f x = f y -> x = y) -> NoDup (map f l).
Proof.
  intros N I. induction N as [|x l NI N IH]; cbn [map]; constructor; auto. rewrite in_map_iff. intros (y & E & H). apply I in E as ->. auto.
Qed.
Lemma section_paths_nodup E r prefix sec out : section_paths E r prefix sec = Ok out -> NoDup out.
Proof.
  unfold section_paths. intros H. destruct (get_value E (r_root r) _ (Some (JList [])) None) as [v|]; [|discriminate]. cbn [bind] in H.
  destruct (json_len v) as [n|]; [|discriminate]. cbn [bind] in H. injection H as <-. apply map_inj_nodup; [apply seq_NoDup|].
  intros i j H. apply app_inv_head in H. injection H as H. apply number_inj; auto.
Qed.
Lemma sections_nodup sv : NoDup (requirement_sections sv).
Proof. destruct sv; repeat constructor; vm_compute; intuition discriminate. Qed.
Lemma scan_in' E r o out p : scan_requirements E r (path_text (scope_of o)) = Ok out -> In p out ->
  exists sec i, In sec (requirement_sections (r_schema r)) /\ p = path_text (scope_of o ++ [$"requirements"; sec; str_of_nat i]).
Proof.
  intros S H. apply (scan_in _ _ _ _ S) in H as (sec & v & i & x & I & _ & _ & ->). exists sec, i. rewrite line_path_text. auto.
Qed.
Lemma scan_nodup E r o out : scan_requirements E r (path_text (scope_of o)) = Ok out -> NoDup out.
Proof.
  intros H. eapply concat_res_nodup; [|exact H| |].
  - rewrite req_sections_spec. apply sections_nodup.
  - intros x a _. apply section_paths_nodup.
  - intros x x' a a' y I I' F F' Y Y'. rewrite req_sections_spec in I, I'.
    apply (section_paths_in _ _ _ _ _ F) in Y as (_ & i & _ & _ & _ & ->).
    apply (section_paths_in _ _ _ _ _ F') in Y' as (_ & i' & _ & _ & _ & Y').
    rewrite !line_path_text in Y'. apply (line_path_inj (r_schema r)) in Y'; tauto.
Qed.
Lemma c90_nodup E r out : get_dependency_paths E r = Ok out -> NoDup out.
Proof.
  unfold get_dependency_paths. intros H.
  destruct (scan_requirements E r []) as [a|] eqn:A; [|discriminate]. cbn [bind] in H.
  destruct (get_value E (r_root r) $"/outputs" (Some (JList [])) None) as [v|] eqn:G; [|discriminate]. cbn [bind] in H.
  destruct (json_len v) as [n|] eqn:N; [|discriminate]. cbn [bind] in H.
  destruct (concat_res _ (seq 0 n)) as [b|] eqn:B; [|discriminate]. cbn [bind] in H. injection H as <-.
  change (@nil ascii) with (path_text (scope_of None)) in A.
  apply nodup_app.
  - eapply scan_nodup; exact A.
  - eapply concat_res_nodup; [apply seq_NoDup|exact B| |].
    + intros k c _ F. cbv beta in F. rewrite scope_text in F. eapply scan_nodup; exact F.
    + intros k k' c c' y _ _ F F' Y Y'. cbv beta in F, F'. rewrite scope_text in F, F'.
      apply (scan_in' _ _ _ _ _ F) in Y as (sec & i & I & ->). apply (scan_in' _ _ _ _ _ F') in Y' as (sec' & i' & I' & Y').
      apply (line_path_inj (r_schema r)) in Y' as ([= ->] & _); auto.
  - intros y Ya Yb. apply (scan_in' _ _ _ _ _ A) in Ya as (sec & i & I & ->). apply concat_res_in in B as (_ & B).
    apply B in Yb as (k & c & _ & F & Y). rewrite scope_text in F. apply (scan_in' _ _ _ _ _ F) in Y as (sec' & i' & I' & Y').
    apply (line_path_inj (r_schema r)) in Y' as (? & _); auto; discriminate.
Qed.
Lemma c90_shape E r out p : get_dependency_paths E r = Ok out -> In p out -> exists cs d, requirements_path p cs d.
Proof.
  intros H I. apply (c90_in _ _ _ H) in I. destruct I as [scope sec v i x S I _ _].
  assert (exists d, spells sec d) as (d & SP).
  { assert (forall s x, str_to_dependency_section s = Some x -> exists d, spells s d) as K by (intros s y Hs; exists y; apply section_spells; exact Hs).
    destruct (r_schema r); cbn [requirement_sections In] in I; repeat (destruct I as [<-|I]; [eapply K; vm_compute; reflexivity|]); destruct I. }
  assert (forall j, digits (str_of_nat j)) as DG by (intros j; apply digits_spec; apply (str_of_nat_spec j)).
  destruct S as [|u k y _ _].
  - change (@nil ascii) with (path_text []). rewrite line_path_text. do 2 eexists. apply (rp_top sec d); auto.
  - rewrite scope_text, line_path_text. do 2 eexists. apply (rp_output (str_of_nat k) sec d); auto.
Qed.
