(** C65, concluded: the five passes one after the other (proofs only). *)
From Verif Require Export ConvertProofs2.
From Verif Require Import Lemmas ConvertSpec.

Definition old_or_new (R : py_token -> str) : Prop := forall k, R k = token_v0 k \/ R k = token_v1 k.
Lemma texts_cons {Kd} (R : Kd -> str) k a more : texts R ((k, a) :: more) = R k ++ a ++ texts R more.
Proof. unfold texts. cbn [map concat fst snd]. rewrite <- app_assoc. reflexivity. Qed.
Lemma v0_head k : exists s, token_v0 k = "p"%char :: s.
Proof. destruct k; eexists; reflexivity. Qed.
Lemma v1_head k : exists s, token_v1 k = "m"%char :: s.
Proof. destruct k; eexists; reflexivity. Qed.
Lemma tail_edge R s more : old_or_new R -> edge s (texts R more).
Proof.
  intros O. left. destruct more as [|[k a] more]; [exact I|]. rewrite texts_cons.
  destruct (O k) as [-> | ->]; [destruct (v0_head k) as (z & ->)|destruct (v1_head k) as (z & ->)]; cbn [app]; auto.
Qed.
Definition ends_here (k : py_token) (t : str) : Prop :=
  match k with
  | PyCompare _ _ _ _ _ | PyIs _ _ => match t with c :: _ => is_digit c = false | [] => True end
  | _ => True
  end.
Lemma ends_tail R k a more : old_or_new R -> ends_version k a -> ends_here k (a ++ texts R more).
Proof.
  intros O H. destruct a as [|c a]; [|destruct k; exact H]. cbn [app]. destruct (tail_edge R [] more O) as [E|(s & E)]; [|destruct s; discriminate].
  destruct (texts R more) as [|c t]; [destruct k; exact I|]. assert (is_digit c = false) as D by (destruct E as [-> | ->]; reflexivity).
  destruct k; cbn [ends_here]; auto.
Qed.
Lemma passes_all r f R0 R1 : old_or_new R0 ->
  (forall s more, other_text s -> quiet_in r s (texts R0 more)) ->
  (forall k t, token_ok k -> ends_here k t -> R0 k = R1 k /\ quiet_in r (R0 k) t \/ hit r f (R0 k) (R1 k) t) ->
  forall first more, expression_ok first more -> re_sub_f r (f (expression R0 first more)) (expression R0 first more) = expression R1 first more.
Proof.
  intros O Q K first more (F & A & B). apply (passes_whole r f R0 R1 first more); [exact (Q first more F)|]. clear F.
  induction more as [|[k a] more IH]; [exact I|]. inversion A as [|? ? [Tk Oa] A']; subst. inversion B as [|? ? Ev B']; subst. cbn [fst snd] in *.
  cbn [passes]. split; [|split; [exact (Q a more Oa)|exact (IH A' B')]]. apply K; [exact Tk|]. exact (ends_tail R0 k a more O Ev).
Qed.
Definition R1 (k : py_token) : str := match k with PyCompare _ _ _ _ _ => token_v1 k | _ => token_v0 k end.
Definition R2 (k : py_token) : str := match k with PyCompare _ _ _ _ _ | PyIs _ _ => token_v1 k | _ => token_v0 k end.
Definition R4 (k : py_token) : str := match k with Py3k => token_v0 k | _ => token_v1 k end.
Lemma new_quiet r k t : spotted r -> token_ok k -> quiet_in r (token_v1 k) t.
Proof. intros SP H. apply other_quiet; [exact SP|exact (token_v1_other k H)|apply token_v1_edge]. Qed.
Lemma major_no_p c : c = "2"%char \/ c = "3"%char -> ceq c "p"%char = false.
Proof. intros [-> | ->]; reflexivity. Qed.

Lemma pass1 first more : expression_ok first more -> upgrade_py_version (expression token_v0 first more) = expression R1 first more.
Proof.
  apply (passes_all SEL_PY_VERSION f_version token_v0 R1).
  - intros k. auto.
  - intros s m O. apply other_quiet; [exact version_spotted|exact O|apply tail_edge; intros k; auto].
  - intros k t T E. destruct k as [g1 op g2 mj mn|mj mn| |].
    + right. exact (version_hit g1 op g2 mj mn t T E).
    + left. split; [reflexivity|]. destruct T as (M & _ & D). apply (one_p_quiet SEL_PY_VERSION ("y"%char :: mj :: mn) t version_spotted).
      * constructor; [reflexivity|]. constructor; [exact (major_no_p mj M)|exact (digits_no_p mn D)].
      * exact (no_version_at mj (mn ++ t) M).
    + left. split; [reflexivity|]. apply (one_p_quiet SEL_PY_VERSION $"y2k" t version_spotted); [repeat constructor|].
      exact (no_version_at "2"%char ("k"%char :: t) (or_introl eq_refl)).
    + left. split; [reflexivity|]. apply (one_p_quiet SEL_PY_VERSION $"y3k" t version_spotted); [repeat constructor|].
      exact (no_version_at "3"%char ("k"%char :: t) (or_intror eq_refl)).
Qed.
Lemma pass2 first more : expression_ok first more -> upgrade_py_eq (expression R1 first more) = expression R2 first more.
Proof.
  assert (old_or_new R1) as O1 by (intros []; cbn; auto).
  apply (passes_all SEL_PY_EQ f_eq R1 R2 O1).
  - intros s m O. apply other_quiet; [exact eq_spotted|exact O|exact (tail_edge R1 s m O1)].
  - intros k t T E. destruct k as [g1 op g2 mj mn|mj mn| |].
    + left. split; [reflexivity|]. exact (new_quiet _ _ _ eq_spotted T).
    + right. exact (eq_hit mj mn t T E).
    + left. split; [reflexivity|]. apply (one_p_quiet SEL_PY_EQ $"y2k" t eq_spotted); [repeat constructor|]. exact (no_eq_at "2"%char t).
    + left. split; [reflexivity|]. apply (one_p_quiet SEL_PY_EQ $"y3k" t eq_spotted); [repeat constructor|]. exact (no_eq_at "3"%char t).
Qed.
(** The third substitution finds nothing: [py36] has been replaced already. *)
Lemma ne_lang u : lang SEL_PY_NE u -> exists c d v, u = $"not py" ++ c :: d :: v /\ telling c = true /\ is_digit d = true.
Proof.
  unfold SEL_PY_NE. cbn [seqs lang]. intros (a & b & -> & A & o & e & -> & O & D). apply lang_L in A as ->.
  unfold L in O. rewrite !lang_L in O. unfold DIG1 in D. cbn [lang] in D. destruct D as (d1 & d2 & -> & (d & -> & Dc) & _).
  destruct O as [-> | ->]; eexists; exists d, d2; (split; [reflexivity|]); split; try reflexivity; exact Dc.
Qed.
Lemma ne_quiet s t : other_text s -> edge s t ->
  (forall c d v, t = $"py" ++ c :: d :: v -> is_digit d = true -> False) \/ (exists s', s = s' ++ $")") -> quiet_in SEL_PY_NE s t.
Proof.
  intros O Ed Q a b E N. apply lang_head. intros u v HL H. apply ne_lang in HL as (c & d & w & -> & T & D).
  pose proof (edge_last s t a b Ed E N) as X.
  assert ((exists b', b = b' ++ [")"%char]) \/ (forall c d v, t = $"py" ++ c :: d :: v -> is_digit d = true -> False)) as Y.
  { destruct Q as [Q|(s' & Q)]; [right; exact Q|left]. destruct (exists_last N) as (b' & z & ->). exists b'. rewrite Q in E.
    rewrite app_assoc in E. apply app_inj_tail in E as [_ <-]. reflexivity. }
  change ($"not py" ++ c :: d :: w) with (["n"; "o"; "t"; " "; "p"; "y"]%char ++ c :: d :: w) in H. cbn [app] in H.
  assert (forall z, match z with [] => True | c :: _ => c = "p"%char \/ c = "m"%char end \/ (exists b', b = b' ++ [")"%char]) -> t = z ->
     forall b0 e, b = b0 ++ [e] -> e <> ")"%char -> match z with [] => True | c :: _ => c = "p"%char \/ c = "m"%char end) as W.
  { intros z [Z|(b' & Z)] -> b0 e Hb Ne; [exact Z|]. rewrite Z in Hb. apply app_inj_tail in Hb as [_ <-]. contradiction. }
  specialize (W t X eq_refl).
  destruct b as [|b1 [|b2 [|b3 [|b4 [|b5 [|b6 [|b7 b]]]]]]]; [contradiction|..]; cbn [app] in H.
  - injection H as -> H. specialize (W [] _ eq_refl ltac:(discriminate)). rewrite H in W. destruct W; discriminate.
  - injection H as -> -> H. specialize (W ["n"%char] _ eq_refl ltac:(discriminate)). rewrite H in W. destruct W; discriminate.
  - injection H as -> -> -> H. specialize (W ["n"; "o"]%char _ eq_refl ltac:(discriminate)). rewrite H in W. destruct W; discriminate.
  - injection H as -> -> -> -> H. destruct Y as [([|? [|? [|? [|? [|? ?]]]]] & Y)|Y]; try discriminate. exact (Y c d (w ++ v) H D).
  - injection H as -> -> -> -> -> H. specialize (W ["n"; "o"; "t"; " "]%char _ eq_refl ltac:(discriminate)). rewrite H in W. destruct W; discriminate.
  - injection H as -> -> -> -> -> -> H. specialize (W ["n"; "o"; "t"; " "; "p"]%char _ eq_refl ltac:(discriminate)). rewrite H in W.
    destruct W as [-> | ->]; vm_compute in T; discriminate.
  - injection H as -> -> -> -> -> -> -> H. specialize (O (a ++ ["n"; "o"; "t"; " "]%char) c b). rewrite O in T; [discriminate|].
    rewrite E, <- app_assoc. reflexivity.
Qed.
Lemma pass3 first more : expression_ok first more -> upgrade_py_ne (expression R2 first more) = expression R2 first more.
Proof.
  assert (old_or_new R2) as O2 by (intros []; cbn; auto).
  apply (passes_all SEL_PY_NE f_ne R2 R2 O2).
  - intros s m O. apply ne_quiet; [exact O|exact (tail_edge R2 s m O2)|]. left. intros c d v E D.
    destruct m as [|[k a] m]; [discriminate|]. rewrite texts_cons in E. destruct k as [g1 op g2 mj mn|mj mn| |]; try discriminate.
    + cbn in E. injection E as _ <- _. discriminate.
    + cbn in E. injection E as _ <- _. discriminate.
  - intros k t T _. left. split; [reflexivity|].
    assert (forall s, Forall (fun c => ceq c "n"%char = false) s -> quiet_in SEL_PY_NE s t) as NN.
    { intros s F a b E N. apply lang_head. intros u v HL H. apply ne_lang in HL as (c & d & w & -> & _). destruct b as [|e b]; [contradiction|].
      rewrite E in F. apply Forall_app in F as [_ F]. inversion F as [|? ? Fe _]; subst. cbn [app] in H. 
      change ($"not py" ++ c :: d :: w) with (["n"; "o"; "t"; " "; "p"; "y"]%char ++ c :: d :: w) in H. cbn [app] in H. injection H as -> _. discriminate. }
    destruct k as [g1 op g2 mj mn|mj mn| |]; cbn [R2].
    + apply ne_quiet; [exact (token_v1_other _ T)|apply token_v1_edge|right]. eexists. unfold token_v1, python_match.
      change $""")" with ($"""" ++ $")"). rewrite !app_assoc. reflexivity.
    + apply ne_quiet; [exact (token_v1_other _ T)|apply token_v1_edge|right]. eexists. unfold token_v1, python_match.
      change $""")" with ($"""" ++ $")"). rewrite !app_assoc. reflexivity.
    + apply NN. repeat constructor.
    + apply NN. repeat constructor.
Qed.
Lemma pass4 first more : expression_ok first more -> upgrade_py2k (expression R2 first more) = expression R4 first more.
Proof.
  assert (old_or_new R2) as O2 by (intros []; cbn; auto).
  apply (passes_all SEL_PY2K (fun _ _ => $"match(python, "">=2,<3"")") R2 R4 O2).
  - intros s m O. apply other_quiet; [exact py2k_spotted|exact O|exact (tail_edge R2 s m O2)].
  - intros k t T _. destruct k as [g1 op g2 mj mn|mj mn| |].
    + left. split; [reflexivity|]. exact (new_quiet _ _ _ py2k_spotted T).
    + left. split; [reflexivity|]. exact (new_quiet _ _ _ py2k_spotted T).
    + right. exact (lit_hit $"py2k" _ t ltac:(discriminate)).
    + left. split; [reflexivity|]. apply (one_p_quiet SEL_PY2K $"y3k" t py2k_spotted); [repeat constructor|].
      apply no_lit_at. reflexivity.
Qed.
Lemma pass5 first more : expression_ok first more -> upgrade_py3k (expression R4 first more) = expression token_v1 first more.
Proof.
  assert (old_or_new R4) as O4 by (intros []; cbn; auto).
  apply (passes_all SEL_PY3K (fun _ _ => $"match(python, "">=3,<4"")") R4 token_v1 O4).
  - intros s m O. apply other_quiet; [exact py3k_spotted|exact O|exact (tail_edge R4 s m O4)].
  - intros k t T _. destruct k as [g1 op g2 mj mn|mj mn| |].
    + left. split; [reflexivity|]. exact (new_quiet _ _ _ py3k_spotted T).
    + left. split; [reflexivity|]. exact (new_quiet _ _ _ py3k_spotted T).
    + left. split; [reflexivity|]. exact (new_quiet _ _ _ py3k_spotted T).
    + right. exact (lit_hit $"py3k" _ t ltac:(discriminate)).
Qed.
Lemma c65 first more : expression_ok first more -> upgrade_expression (expression token_v0 first more) = expression token_v1 first more.
Proof. intros H. unfold upgrade_expression. rewrite pass1, pass2, pass3, pass4, pass5 by exact H. reflexivity. Qed.
