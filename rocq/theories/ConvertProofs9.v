(** C86 and C87: pre-processing (proofs only). *)
From Verif Require Export ConvertProofs8.
From Verif Require Import Lemmas PatchProofs PathProofs RenderProofs RegexProofs Commands ConvertSpec.

(** * Nothing to do *)
Lemma sub_none r f s : (forall u, lang r u -> ~ has_text u s) -> re_sub_f r f s = s.
Proof.
  intros H. unfold re_sub_f. assert (quiet_in r s []) as Q.
  { intros a b E N prev p. destruct (match_at r prev p (b ++ [])) as [x|] eqn:M; [|reflexivity]. exfalso.
    apply match_lang in M as (u & v & Ev & HL). rewrite app_nil_r in Ev. apply (H u HL). exists a, v. rewrite E, Ev. reflexivity. }
  destruct (sub_plain r s f [] s None 0 Q) as (prev & X). rewrite app_nil_r in X. rewrite X. cbn [sub_aux]. apply app_nil_r.
Qed.
Lemma scan_none r : forall s prev p, (forall u, lang r u -> ~ has_text u s) -> scan r prev p 0 s = [].
Proof.
  induction s as [|c s IH]; intros prev p H; [reflexivity|]. cbn [scan]. destruct (match_at r prev p (c :: s)) as [x|] eqn:M.
  - exfalso. apply match_lang in M as (u & v & E & HL). apply (H u HL). exists [], v. exact E.
  - apply IH. intros u HL X. apply (H u HL). apply has_text_cons. exact X.
Qed.
Lemma replace_none old new : forall s, old <> [] -> ~ has_text old s -> replace_all_aux old new 0 s = s.
Proof.
  induction s as [|c s IH]; intros N H; [reflexivity|]. cbn [replace_all_aux]. destruct (starts_with old (c :: s)) eqn:S.
  - exfalso. apply H. apply starts_with_spec in S as (v & S). exists [], v. exact S.
  - f_equal. apply IH; [exact N|]. intros X. apply H. apply has_text_cons. exact X.
Qed.
Lemma has_trans p u s : has_text p u -> has_text u s -> has_text p s.
Proof. intros (a & b & ->) (c & d & ->). exists (c ++ a), (b ++ d). rewrite <- !app_assoc. reflexivity. Qed.
Lemma has_mid (a p b : str) : has_text p (a ++ p ++ b).
Proof. exists a, b. reflexivity. Qed.
Lemma has_right (a b p : str) : has_text p b -> has_text p (a ++ b).
Proof. intros (x & y & ->). exists (a ++ x), y. rewrite <- app_assoc. reflexivity. Qed.
Lemma has_left (a b p : str) : has_text p a -> has_text p (a ++ b).
Proof. intros (x & y & ->). exists x, (y ++ b). rewrite <- !app_assoc. reflexivity. Qed.
Ltac lits := repeat match goal with H : lang (L _) _ |- _ => unfold L in H; apply lang_L in H; subst end.
Lemma dots_line u : lang DOTS u -> ~ In cNL u.
Proof. unfold DOTS. cbn [lang]. intros F I. rewrite Forall_forall in F. specialize (F _ I). discriminate F. Qed.
Lemma words_line u : lang (StarC is_word) u -> ~ In cNL u.
Proof. cbn [lang]. intros F I. rewrite Forall_forall in F. specialize (F _ I). discriminate F. Qed.
Lemma dotted_trans u s : dotted_call u -> has_text u s -> dotted_call s.
Proof.
  intros (a & b & c & -> & N) (x & y & ->). exists (x ++ a), b, (c ++ y). split; [|exact N]. rewrite <- !app_assoc. reflexivity.
Qed.
Lemma dot_assign u : lang PRE_DOT_ASSIGNMENT u -> dotted_call u.
Proof.
  unfold PRE_DOT_ASSIGNMENT. cbn [seqs]. intros (a & b & -> & _ & c & d & -> & Hc & Hd). lits.
  destruct Hd as (e & f & -> & He & g & h & -> & Hg & _). lits. exists a, e, h. split; [reflexivity|exact (dots_line e He)].
Qed.
Lemma dot_subst u : lang PRE_DOT_SUBSTITUTION u -> dotted_call u.
Proof.
  unfold PRE_DOT_SUBSTITUTION. cbn [seqs]. intros (a & b & -> & _ & c & d & -> & Hc & Hd). lits.
  destruct Hd as (e & f & -> & He & g & h & -> & Hg & _). lits. exists a, e, h. split; [reflexivity|exact (words_line e He)].
Qed.
Lemma empty_paren u : lang PRE_EMPTY_PARENTHESIS u -> has_text $"lower()" u \/ has_text $"upper()" u.
Proof.
  unfold PRE_EMPTY_PARENTHESIS. cbn [seqs]. intros (a & b & -> & (c & d & -> & _ & e & f & -> & _ & Hf) & Hb).
  cbn [lang] in Hb. change (lang (L "()") b) in Hb. lits. cbn [lang] in Hf. destruct Hf as [Hf|Hf].
  - change (lang (L "lower") f) in Hf. lits. left. apply has_trans with (lit "lower" ++ lit "()"); [exists [], []; reflexivity|].
    exists (c ++ e), []. rewrite app_nil_r, <- !app_assoc. reflexivity.
  - change (lang (L "upper") f) in Hf. lits. right. apply has_trans with (lit "upper" ++ lit "()"); [exists [], []; reflexivity|].
    exists (c ++ e), []. rewrite app_nil_r, <- !app_assoc. reflexivity.
Qed.
Lemma quoted_multi u : lang PRE_QUOTED_MULTILINE u -> has_text $"\n" u.
Proof.
  unfold PRE_QUOTED_MULTILINE. cbn [seqs]. intros (a & b & -> & _ & c & d & -> & _ & e & f & -> & _ & g & h & -> & _ & i & j & -> & _ & k & l & -> & _ & o & q & -> & Ho & _).
  lits. do 6 apply has_right. exists [], q. reflexivity.
Qed.
Lemma environ_has u : lang PRE_ENVIRON u -> has_text $"environ[" u.
Proof.
  unfold PRE_ENVIRON. cbn [seqs]. intros (a & b & -> & _ & c & d & -> & Hc & _). lits. apply has_mid.
Qed.
Lemma hash_key u : lang PRE_PROCESS_JINJA_HASH_TYPE_KEY u -> exists name, In name [$"hash_type"; $"hash"; $"hashtype"] /\ has_text ($"{{ " ++ name ++ $" }}") u.
Proof.
  unfold PRE_PROCESS_JINJA_HASH_TYPE_KEY. cbn [seqs]. intros (a & b & -> & _ & c & d & -> & Hc & e & f & -> & He & g & h & -> & Hg & _). lits.
  cbn [lang] in He.
  assert (In e [$"hash_type"; $"hash"; $"hashtype"]) as I.
  { destruct He as [He|[He|He]]; [change (lang (L "hash_type") e) in He|change (lang (L "hash") e) in He|change (lang (L "hashtype") e) in He]; lits; cbn [In]; auto. }
  exists e. split; [exact I|]. exists a, h. change (lit "{{ ") with ($"{{ "). rewrite <- !app_assoc. reflexivity.
Qed.
Lemma c86 variants s : Forall (fun v => In v HASH_TYPE_VARIANTS) variants -> calm s -> pre_process_recipe_text variants s = s.
Proof.
  intros HV (ND & NL & NU & NM & (P1 & P2) & NE & NH). unfold pre_process_recipe_text.
  assert (pre_dots s = s) as ->.
  { unfold pre_dots. cbv zeta. rewrite !(sub_none PRE_DOT_ASSIGNMENT); [|intros u H X; apply ND; apply (dotted_trans u); [apply dot_assign; exact H|exact X]..].
    apply sub_none. intros u H X. apply ND. apply (dotted_trans u); [apply dot_subst; exact H|exact X]. }
  assert (pre_parentheses s = s) as ->.
  { apply sub_none. intros u H X. apply empty_paren in H as [H|H]; [apply NL|apply NU]; exact (has_trans _ _ _ H X). }
  assert (pre_multiline s = s) as ->.
  { apply sub_none. intros u H X. apply NM. exact (has_trans _ _ _ (quoted_multi u H) X). }
  assert (pre_pins s = s) as ->.
  { pose proof (c85_pins s [] (conj P1 P2) (Forall_nil _)) as X. unfold pinned in X. cbn [map concat] in X. rewrite app_nil_r in X. exact X. }
  assert (pre_environ s = s) as ->.
  { unfold pre_environ. rewrite scan_none; [reflexivity|]. intros u H X. apply NE. exact (has_trans _ _ _ (environ_has u H) X). }
  unfold pre_process_remove_hash_type.
  assert (fold_left (fun t v => replace_all v [] t) variants s = s) as ->.
  { induction HV as [|v variants I HV IH]; [reflexivity|]. cbn [fold_left]. unfold replace_all at 2. rewrite replace_none; [exact IH|..].
    - unfold HASH_TYPE_VARIANTS in I. cbn [map In] in I. destruct I as [<-|[<-|[<-|[]]]]; discriminate.
    - unfold HASH_TYPE_VARIANTS in I. apply in_map_iff in I as (name & <- & I). apply NH.
      cbn [In] in I |- *. tauto. }
  apply sub_none. intros u H X. apply hash_key in H as (name & I & H). exact (proj1 (NH name I) (has_trans _ _ _ H X)).
Qed.
