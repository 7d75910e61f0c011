(** C65: the five substitutions of a selector expression (proofs only). *)
From Verif Require Export RegexProofs Convert.
From Verif Require Import Lemmas ConvertSpec.

(** * Substitution, piece by piece *)
Definition still (r : re) (b : str) : Prop := forall prev p, match_at r prev p b = None.
Definition quiet_in (r : re) (s t : str) : Prop := forall a b, s = a ++ b -> b <> [] -> still r (b ++ t).
Lemma sub_plain r whole f t : forall s prev p, quiet_in r s t ->
  exists prev', sub_aux r whole f prev p 0 (s ++ t) = s ++ sub_aux r whole f prev' (p + length s) 0 t.
Proof.
  induction s as [|c s IH]; intros prev p Q.
  - exists prev. cbn [app length]. rewrite Nat.add_0_r. reflexivity.
  - cbn [app sub_aux]. pose proof (Q [] (c :: s) eq_refl ltac:(discriminate) prev p) as N. cbn [app] in N. rewrite N.
    destruct (IH (Some c) (S p)) as (prev' & E).
    + intros a b Hs. apply (Q (c :: a) b). rewrite Hs. reflexivity.
    + exists prev'. rewrite E. cbn [length]. rewrite Nat.add_succ_r. reflexivity.
Qed.
Lemma sub_skip r whole f t : forall u prev p, exists prev',
  sub_aux r whole f prev p (length u) (u ++ t) = sub_aux r whole f prev' (p + length u) 0 t.
Proof.
  induction u as [|c u IH]; intros prev p.
  - exists prev. cbn [app length]. rewrite Nat.add_0_r. reflexivity.
  - cbn [app length sub_aux]. destruct (IH (Some c) (S p)) as (prev' & E). exists prev'. rewrite E, Nat.add_succ_r. reflexivity.
Qed.
Lemma sub_hit r whole f prev p u t x : u <> [] -> match_at r prev p (u ++ t) = Some x ->
  m_start x = p -> m_end x = p + length u ->
  exists prev', sub_aux r whole f prev p 0 (u ++ t) = f x ++ sub_aux r whole f prev' (p + length u) 0 t.
Proof.
  intros N M B E. destruct u as [|c u]; [contradiction|]. cbn [app sub_aux]. cbn [app] in M. rewrite M, B, E. cbn [length].
  replace (p + S (length u) - p - 1) with (length u) by lia.
  destruct (sub_skip r whole f t u (Some c) (S p)) as (prev' & ->). exists prev'. rewrite Nat.add_succ_r. reflexivity.
Qed.

(** One pass over a text made of tokens and other text. *)
Definition texts {Kd} (R : Kd -> str) (more : list (Kd * str)) : str := concat (map (fun x => R (fst x) ++ snd x) more).
Definition hit (r : re) (f : str -> rmatch -> str) (old new t : str) : Prop :=
  old <> [] /\ forall done prev, exists x, match_at r prev (length done) (old ++ t) = Some x
    /\ m_start x = length done /\ m_end x = length done + length old /\ f (done ++ old ++ t) x = new.
Fixpoint passes {Kd} (r : re) (f : str -> rmatch -> str) (R0 R1 : Kd -> str) (more : list (Kd * str)) : Prop :=
  match more with
  | [] => True
  | (k, a) :: more' =>
      (R0 k = R1 k /\ quiet_in r (R0 k) (a ++ texts R0 more') \/ hit r f (R0 k) (R1 k) (a ++ texts R0 more'))
      /\ quiet_in r a (texts R0 more') /\ passes r f R0 R1 more'
  end.
Lemma passes_tail {Kd} r f (R0 R1 : Kd -> str) : forall more done prev whole, passes r f R0 R1 more -> whole = done ++ texts R0 more ->
  sub_aux r whole (f whole) prev (length done) 0 (texts R0 more) = texts R1 more.
Proof.
  induction more as [|[k a] more IH]; intros done prev whole P W; [reflexivity|].
  cbn [passes] in P. destruct P as (K & Q & P). unfold texts in *. cbn [map concat fst snd] in *.
  fold (texts R0 more) in *. fold (texts R1 more) in *. rewrite <- !app_assoc in *.
  assert (exists prev', sub_aux r whole (f whole) prev (length done) 0 (R0 k ++ a ++ texts R0 more)
      = R1 k ++ sub_aux r whole (f whole) prev' (length done + length (R0 k)) 0 (a ++ texts R0 more)) as (prev' & ->).
  { destruct K as [[E K]|[N K]].
    - rewrite <- E. exact (sub_plain r whole (f whole) _ (R0 k) prev (length done) K).
    - destruct (K done prev) as (x & M & B & En & F). rewrite <- W in F. rewrite <- F.
      exact (sub_hit r whole (f whole) prev (length done) (R0 k) _ x N M B En). }
  f_equal. destruct (sub_plain r whole (f whole) _ a prev' (length done + length (R0 k)) Q) as (prev'' & ->). f_equal.
  specialize (IH (done ++ R0 k ++ a) prev'' whole P). rewrite !app_length in IH. rewrite Nat.add_assoc in IH. apply IH.
  rewrite W, <- !app_assoc. reflexivity.
Qed.
Lemma passes_whole {Kd} r f (R0 R1 : Kd -> str) first more : quiet_in r first (texts R0 more) -> passes r f R0 R1 more ->
  let whole := first ++ texts R0 more in re_sub_f r (f whole) whole = first ++ texts R1 more.
Proof.
  intros Q P whole. unfold re_sub_f. unfold whole at 3.
  destruct (sub_plain r whole (f whole) _ first None 0 Q) as (prev & ->). f_equal.
  exact (passes_tail r f R0 R1 more first prev whole P eq_refl).
Qed.

(** * Where nothing matches *)
Definition spotted (r : re) : Prop := forall u, lang r u -> exists c v, u = $"py" ++ c :: v /\ telling c = true.
Definition edge (s t : str) : Prop :=
  match t with [] => True | c :: _ => c = "p"%char \/ c = "m"%char end \/ exists s', s = s' ++ $")".
Lemma match_lang r prev p s x : match_at r prev p s = Some x -> exists u v, s = u ++ v /\ lang r u.
Proof. intros H. apply m_sound in H as (u & st & R & HL & _). exists u, (rest st). auto. Qed.
Lemma edge_last s t a b : edge s t -> s = a ++ b -> b <> [] ->
  match t with [] => True | c :: _ => c = "p"%char \/ c = "m"%char end \/ exists b', b = b' ++ [")"%char].
Proof.
  intros [H|(s' & H)] E N; [left; exact H|right]. destruct (exists_last N) as (b' & c & ->). exists b'. rewrite H in E.
  rewrite app_assoc in E. apply app_inj_tail in E as [_ <-]. reflexivity.
Qed.
Lemma other_quiet r s t : spotted r -> other_text s -> edge s t -> quiet_in r s t.
Proof.
  intros SP O Ed a b E N prev p. destruct (match_at r prev p (b ++ t)) as [x|] eqn:M; [exfalso|reflexivity].
  apply match_lang in M as (u & v & H & HL). destruct (SP u HL) as (c & w & -> & T). pose proof (edge_last s t a b Ed E N) as X.
  change ($"py" ++ c :: w) with ("p"%char :: "y"%char :: c :: w) in H. cbn [app] in H.
  destruct b as [|b1 [|b2 [|b3 b]]]; [contradiction|..]; cbn [app] in H.
  - injection H as -> H. destruct X as [X|([|? [|]] & X)]; try discriminate. rewrite H in X. destruct X as [X|X]; discriminate.
  - injection H as -> -> H. destruct X as [X|([|? [|? [|]]] & X)]; try discriminate. rewrite H in X.
    destruct X as [-> | ->]; vm_compute in T; discriminate.
  - injection H as -> -> -> H. specialize (O a c b). rewrite O in T; [discriminate|]. exact E.
Qed.
Lemma version_spotted : spotted SEL_PY_VERSION.
Proof.
  intros u. unfold SEL_PY_VERSION. cbn [seqs lang]. intros (a & b & -> & A & w & d & -> & W & o & e & -> & O & _).
  apply lang_L in A as ->. destruct w as [|c w].
  - unfold L in O. rewrite !lang_L in O. 
    assert (exists c v, o = c :: v /\ telling c = true) as (c & v & -> & T)
      by (destruct O as [->|[->|[->|[->|[->| ->]]]]]; vm_compute; eauto).
    exists c, (v ++ e). split; [reflexivity|exact T].
  - inversion W; subst. exists c, (w ++ o ++ e). split; [reflexivity|]. unfold telling. 
    match goal with H : is_space c = true |- _ => rewrite H end. reflexivity.
Qed.
Lemma eq_spotted : spotted SEL_PY_EQ.
Proof.
  intros u. unfold SEL_PY_EQ. cbn [seqs lang]. intros (a & b & -> & A & o & e & -> & O & _). apply lang_L in A as ->.
  unfold L in O. rewrite !lang_L in O. destruct O as [-> | ->]; eexists; exists e; (split; [reflexivity|reflexivity]).
Qed.
Lemma py2k_spotted : spotted SEL_PY2K.
Proof. intros u H. unfold SEL_PY2K, L in H. apply lang_L in H as ->. exists "2"%char, $"k". split; reflexivity. Qed.
Lemma py3k_spotted : spotted SEL_PY3K.
Proof. intros u H. unfold SEL_PY3K, L in H. apply lang_L in H as ->. exists "3"%char, $"k". split; reflexivity. Qed.

(** The new texts are other text. *)
Fixpoint ot (s : str) : bool :=
  match s with
  | [] => true
  | c :: s' => match s' with
               | d :: e :: _ => negb (ceq c "p"%char && ceq d "y"%char && telling e)
               | _ => true
               end && ot s'
  end.
Lemma ot_sound s : ot s = true -> other_text s.
Proof.
  induction s as [|x s IH]; intros H before c after E.
  - destruct before; discriminate.
  - cbn [ot] in H. apply andb_prop in H as [H1 H2]. destruct before as [|y before].
    + change ($"py" ++ c :: after) with ("p"%char :: "y"%char :: c :: after) in E. cbn [app] in E. injection E as -> ->.
      rewrite !ceq_refl in H1. destruct (telling c); [discriminate|reflexivity].
    + cbn [app] in E. injection E as -> E. exact (IH H2 before c after E).
Qed.
Definition no_p (s : str) : Prop := Forall (fun c => ceq c "p"%char = false) s.
Lemma ot_no_p s t : no_p s -> ot t = true -> ot (s ++ t) = true.
Proof.
  intros F T. induction F as [|c s P F IH]; [exact T|]. cbn [app ot]. rewrite P, IH. cbn [andb negb]. destruct (s ++ t) as [|? [|? ?]]; reflexivity.
Qed.
Lemma python_match_other bound : no_p bound -> other_text (python_match bound).
Proof.
  intros F. apply ot_sound. unfold python_match.
  assert (ot (bound ++ $""")") = true) as T by (apply ot_no_p; [exact F|reflexivity]).
  change ($"match(python, """ ++ bound ++ $""")") with
    (["m"; "a"; "t"; "c"; "h"; "("; "p"; "y"; "t"; "h"; "o"; "n"; ","; " "; cDQ]%char ++ (bound ++ $""")")).
  set (z := bound ++ $""")") in *. cbn [app ot]. rewrite T. destruct z as [|? [|? ?]]; reflexivity.
Qed.
Lemma digits_no_p s : Forall (fun c => is_digit c = true) s -> no_p s.
Proof.
  intros F. unfold no_p. eapply Forall_impl; [|exact F]. intros c H. cbv beta in *. destruct (ceq c "p"%char) eqn:E; [|reflexivity].
  apply ceq_eq in E as ->. discriminate.
Qed.
Lemma token_v1_other k : token_ok k -> other_text (token_v1 k).
Proof.
  intros H. apply python_match_other. destruct k as [g1 op g2 mj mn|mj mn| |]; cbn [token_ok] in H.
  - destruct H as (_ & _ & O & M & _ & D). apply Forall_app. split.
    + cbn [In] in O. destruct O as [<-|[<-|[<-|[<-|[<-|[<-|[]]]]]]]; repeat constructor.
    + constructor; [destruct M as [-> | ->]; reflexivity|]. constructor; [reflexivity|exact (digits_no_p mn D)].
  - destruct H as (M & _ & D). apply Forall_app. split; [repeat constructor|].
    constructor; [destruct M as [-> | ->]; reflexivity|]. constructor; [reflexivity|exact (digits_no_p mn D)].
  - repeat constructor.
  - repeat constructor.
Qed.
Lemma token_v1_edge k t : edge (token_v1 k) t.
Proof. right. eexists. unfold token_v1, python_match. change $""")" with ($"""" ++ $")"). rewrite !app_assoc. reflexivity. Qed.
