(** C78: the conversion as a sequence of steps (proofs only). *)
From Verif Require Export Convert.
From Verif Require Import Lemmas ConvertSpec.

Lemma category_eqb_refl c : category_eqb c c = true.
Proof. destruct c; reflexivity. Qed.
Lemma tbl_get_set c d l t : tbl_get c (tbl_set d l t) = if category_eqb c d then Some l else tbl_get c t.
Proof.
  induction t as [|[e k] t IH]; cbn [tbl_set tbl_get]; [destruct (category_eqb c d); reflexivity|].
  destruct (category_eqb d e) eqn:D; cbn [tbl_get].
  - destruct d, e; try discriminate; destruct c; reflexivity.
  - rewrite IH. destruct c, d, e; try discriminate; reflexivity.
Qed.
Lemma add_one_more c m t : one_more c m t (add_message c m t).
Proof.
  intros d. unfold add_message, get_messages. destruct (tbl_get c t) as [l|] eqn:G.
  - rewrite G, tbl_get_set. destruct (category_eqb d c) eqn:D; [|reflexivity]. destruct d, c; try discriminate; rewrite G; reflexivity.
  - rewrite tbl_get_set, category_eqb_refl, tbl_get_set, tbl_get_set. destruct (category_eqb d c) eqn:D; [|reflexivity].
    destruct d, c; try discriminate; rewrite G; reflexivity.
Qed.
Lemma steps_app E a ps b : steps E a ps b -> forall qs c, steps E b qs c -> steps E a (ps ++ qs) c.
Proof.
  induction 1 as [s|s s1 ps s2 H1 H2 IH|s p s1 ps s2 H1 H2 IH]; intros qs c K; [exact K|..].
  - exact (steps_more E s s1 _ c H1 (IH qs c K)).
  - exact (steps_refused E s p s1 _ c H1 (IH qs c K)).
Qed.
Lemma steps_one E a b : step E a b -> steps E a [] b.
Proof. intros H. exact (steps_more E a b [] b H (steps_none E b)). Qed.

(** Where a computation stops: after some steps; a call that raised may have left the recipe changed. *)
Definition walks {A} (E : env) (m : conv A) : Prop := forall s o s', m s = (o, s') ->
  match o with
  | Ok _ => exists ps, steps E s ps s'
  | Err _ => exists ps s1, steps E s ps s1 /\ msgs s1 = msgs s'
  end.
Section Walks.
Context (T : tools).
Let E := t_env T.
Lemma walks_ret {A} (a : A) : walks E (ret a).
Proof. intros s o s' [= <- <-]. exists []. constructor. Qed.
Lemma walks_andthen {A B} (m : conv A) (f : A -> conv B) : walks E m -> (forall a, walks E (f a)) -> walks E (andthen m f).
Proof.
  intros M F s o s' H. unfold andthen in H. destruct (m s) as [[a|e] s1] eqn:K.
  - destruct (M _ _ _ K) as (ps & P). pose proof (F a _ _ _ H) as Q. destruct o as [b|e].
    + destruct Q as (qs & Q). exists (ps ++ qs). exact (steps_app E _ _ _ P _ _ Q).
    + destruct Q as (qs & s2 & Q & R). exists (ps ++ qs), s2. split; [exact (steps_app E _ _ _ P _ _ Q)|exact R].
  - injection H as <- <-. exact (M _ _ _ K).
Qed.
Lemma walks_ask {A} (f : recipe -> res A) : walks E (ask f).
Proof. intros s o s' [= <- <-]. destruct (f (v1 s)); [exists []; constructor|exists [], s; split; [constructor|reflexivity]]. Qed.
Lemma walks_pure {A} (r : res A) : walks E (pure r).
Proof. intros s o s' [= <- <-]. destruct r; [exists []; constructor|exists [], s; split; [constructor|reflexivity]]. Qed.
Lemma walks_say c m : walks E (say c m).
Proof. intros s o s' [= <- <-]. exists []. apply steps_one. apply (step_message E c m). apply add_one_more. Qed.
Lemma walks_each {A} (l : list A) f : (forall x, walks E (f x)) -> walks E (each l f).
Proof. intros F. induction l as [|x l IH]; cbn [each]; [apply walks_ret|]. apply walks_andthen; [apply F|intros _; exact IH]. Qed.
Lemma walks_when b m : walks E m -> walks E (when b m).
Proof. intros M. destruct b; [exact M|apply walks_ret]. Qed.
Lemma walks_patch p : walks E (patch_and_log T p).
Proof.
  intros s o s' H. unfold patch_and_log, andthen, call in H. fold E in H. destruct (patch E p (v1 s)) as [[b|e] r'] eqn:P.
  - destruct b; cbn [negb when ret] in H.
    + injection H as <- <-. exists []. apply steps_one. exact (step_patch E p r' s P).
    + injection H as <- <-. exists [p]. eapply steps_refused; [|apply steps_none]. split; [exact P|cbn [msgs v1]; apply add_one_more].
  - injection H as <- <-. exists [], s. split; [constructor|reflexivity].
Qed.
Lemma walks_unselect path : walks E (call (remove_selector E path)).
Proof.
  intros s o s' H. unfold call in H. destruct (remove_selector E path (v1 s)) as [[x|e] r'] eqn:P; injection H as <- <-.
  - exists []. apply steps_one. exact (step_selector E path x r' s P).
  - exists [], s. split; [constructor|reflexivity].
Qed.
Lemma walks_sort path tbl : walks E (sort_keys path tbl).
Proof.
  intros s o s' H. unfold sort_keys in H. destruct (sort_subtree_keys (r_root (v1 s)) path tbl []) as [root|e] eqn:P; injection H as <- <-.
  - exists []. apply steps_one. exact (step_sort E path tbl root s P).
  - exists [], s. split; [constructor|reflexivity].
Qed.
Ltac walk := repeat (cbv zeta; first
  [ match goal with |- forall _, _ => intro end
  | match goal with
    | |- walks _ (andthen _ _) => apply walks_andthen
    | |- walks _ (ret _) => apply walks_ret
    | |- walks _ (ask _) => apply walks_ask
    | |- walks _ (has _) => apply walks_ask
    | |- walks _ (value _ _ _) => apply walks_ask
    | |- walks _ (pure _) => apply walks_pure
    | |- walks _ (say _ _) => apply walks_say
    | |- walks _ (each _ _) => apply walks_each
    | |- walks _ (when _ _) => apply walks_when
    | |- walks _ (patch_and_log _ _) => apply walks_patch
    | |- walks _ (call (remove_selector _ _)) => apply walks_unselect
    | |- walks _ (sort_keys _ _) => apply walks_sort
    end
  | match goal with |- walks _ (if ?b then _ else _) => destruct b end
  | match goal with |- walks _ (match ?x with _ => _ end) => destruct x end ]).
Lemma walks_has path : walks E (has path). Proof. apply walks_ask. Qed.
Lemma walks_value path d : walks E (value T path d). Proof. apply walks_ask. Qed.
Lemma walks_add_missing b e v : walks E (patch_add_missing_path T b e v).
Proof. unfold patch_add_missing_path. walk. Qed.
Lemma walks_move_base b o n : walks E (patch_move_base_path T b o n).
Proof. unfold patch_move_base_path. walk. Qed.
Lemma walks_move_new b o n x : walks E (patch_move_new_path T b o n x).
Proof. unfold patch_move_new_path. walk; [apply walks_add_missing|apply walks_move_base]. Qed.
Lemma walks_deprecated b l : walks E (patch_deprecated_fields T b l).
Proof. unfold patch_deprecated_fields. walk. Qed.
Lemma walks_context vars : forall acc, walks E (context_of vars acc).
Proof. induction vars as [|[n v] vars IH]; intros acc; cbn [context_of]; [walk|]. destruct (context_value v); [apply IH|]. walk. apply IH. Qed.
Lemma walks_jinja : walks E (upgrade_jinja_to_context_obj T).
Proof. unfold upgrade_jinja_to_context_obj. walk. apply walks_context. Qed.
Lemma walks_selector k i : walks E (upgrade_selector T k i).
Proof. unfold upgrade_selector. walk. Qed.
Lemma walks_selectors : walks E (upgrade_selectors_to_conditionals T).
Proof. unfold upgrade_selectors_to_conditionals. walk. apply walks_selector. Qed.
Lemma walks_misspellings l : walks E (correct_common_misspellings T l).
Proof. unfold correct_common_misspellings. walk; apply walks_move_base. Qed.
Lemma walks_source l : walks E (upgrade_source_section T l).
Proof. unfold upgrade_source_section, upgrade_source. walk; apply walks_move_base. Qed.
Lemma walks_env p l : forall acc, walks E (env_entries p l acc).
Proof. induction l as [|x l IH]; intros acc; cbn [env_entries]; [walk|]. apply walks_andthen; [|intros; apply IH]. unfold env_entry. walk. Qed.
Lemma walks_script b : walks E (upgrade_build_script_section T b).
Proof. unfold upgrade_build_script_section. walk. apply walks_env. Qed.
Lemma walks_requirement b f : walks E (move_to_requirements T b f).
Proof. unfold move_to_requirements. walk. Qed.
Lemma walks_build l : walks E (upgrade_build_section T l).
Proof.
  unfold upgrade_build_section. walk;
    first [apply walks_requirement|apply walks_move_base|apply walks_move_new|apply walks_script|apply walks_deprecated].
Qed.
Lemma walks_requirements l : walks E (upgrade_requirements_section T l).
Proof. unfold upgrade_requirements_section. walk; apply walks_move_base. Qed.
Lemma walks_licenses a : walks E (fix_bad_licenses T a).
Proof. unfold fix_bad_licenses. walk. Qed.
Lemma walks_about l : walks E (upgrade_about_section T l).
Proof. unfold upgrade_about_section. walk; first [apply walks_move_base|apply walks_licenses|apply walks_deprecated]. Qed.
Lemma walks_pip b t : walks E (upgrade_test_pip_check T b t).
Proof. unfold upgrade_test_pip_check. walk; apply walks_add_missing. Qed.
Lemma walks_test l : walks E (upgrade_test_section T l).
Proof. unfold upgrade_test_section. walk; first [apply walks_move_base|apply walks_add_missing|apply walks_pip]. Qed.
Lemma walks_multi l : walks E (upgrade_multi_output T l).
Proof. unfold upgrade_multi_output. walk; first [apply walks_move_base|apply walks_add_missing]. Qed.
Lemma walks_upgrades : walks E (upgrades T).
Proof.
  unfold upgrades. walk; first [apply walks_selectors|apply walks_jinja|apply walks_misspellings|apply walks_source|apply walks_build
    |apply walks_requirements|apply walks_about|apply walks_test|apply walks_multi].
Qed.
Lemma walks_comments l : walks E (report_lost_comments T l).
Proof. unfold report_lost_comments. walk. Qed.
End Walks.
