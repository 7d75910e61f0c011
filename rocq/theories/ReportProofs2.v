(** C108: every output of a build is made of messages and other text (proofs only). *)
From Verif Require Import Lemmas ReportProofs.
From Verif Require Import ReportSpec.
From Coq Require Import Wf_nat.

Lemma starts_dec s : (exists c r, is_space c = true /\ s = $"Error:" ++ c :: r) \/ ~ (exists c r, is_space c = true /\ s = $"Error:" ++ c :: r).
Proof.
  change $"Error:" with ["E"; "r"; "r"; "o"; "r"; ":"]%char.
  do 6 (destruct s as [|? s]; [right; intros (c & r & _ & H); discriminate|]).
  destruct s as [|d r]; [right; intros (c & r & _ & H); discriminate|].
  destruct (list_eq_dec ascii_dec [a; a0; a1; a2; a3; a4] ["E"; "r"; "r"; "o"; "r"; ":"]%char) as [E|E].
  - destruct (is_space d) eqn:D.
    + left. exists d, r. split; [exact D|]. injection E as -> -> -> -> -> ->. reflexivity.
    + right. intros (c & r' & Hc & H). injection H as _ _ _ _ _ _ -> _. rewrite Hc in D. discriminate.
  - right. intros (c & r' & Hc & H). injection H as -> -> -> -> -> -> _ _. apply E. reflexivity.
Qed.
Lemma no_error_cons a s t : ~ (exists c r, is_space c = true /\ (a :: s ++ t)%list = $"Error:" ++ c :: r) -> no_error s -> no_error (a :: s).
Proof.
  intros NS N c Hc (x & y & E). destruct x as [|b x].
  - apply NS. exists c, (y ++ t). split; [exact Hc|].
    change (a :: s ++ t) with ((a :: s) ++ t). rewrite E. cbn [app]. rewrite <- !app_assoc. reflexivity.
  - injection E as -> E. apply (N c Hc). exists x, y. exact E.
Qed.
Lemma first_error s : no_error s \/ exists first c r, s = first ++ $"Error:" ++ c :: r /\ is_space c = true /\ no_error first.
Proof.
  induction s as [|a s IH].
  - left. intros c _ (x & y & E). destruct x; discriminate.
  - destruct (starts_dec (a :: s)) as [(c & r & Hc & E)|NS].
    + right. exists [], c, r. split; [exact E|]. split; [exact Hc|]. intros d _ (x & y & F). destruct x; discriminate.
    + destruct IH as [N|(first & c & r & -> & Hc & N)].
      * left. apply (no_error_cons a s []); [rewrite app_nil_r; exact NS|exact N].
      * right. exists (a :: first), c, r. split; [reflexivity|]. split; [exact Hc|].
        exact (no_error_cons a first _ NS N).
Qed.
Lemma split_while (f : ascii -> bool) s : exists a b, s = a ++ b /\ Forall (fun c => f c = true) a /\ (b = [] \/ exists c r, b = c :: r /\ f c = false).
Proof.
  induction s as [|c s (a & b & -> & F & B)].
  - exists [], []. split; [reflexivity|]. split; [constructor|]. left. reflexivity.
  - destruct (f c) eqn:C.
    + exists (c :: a), b. split; [reflexivity|]. split; [constructor; assumption|exact B].
    + exists [], (c :: a ++ b). split; [reflexivity|]. split; [constructor|]. right. exists c, (a ++ b). split; [reflexivity|exact C].
Qed.
Lemma every_output s : exists first more, errors_ok first more /\ s = with_errors first more.
Proof.
  induction s as [s IH] using (well_founded_induction (well_founded_ltof str (@length ascii))). unfold ltof in IH.
  destruct (first_error s) as [N|(first & c & r & -> & Hc & N)].
  { exists s, []. split; [split; [exact N|exact I]|]. unfold with_errors. cbn [map concat]. rewrite app_nil_r. reflexivity. }
  destruct (split_while is_space r) as (g & t & -> & Fg & B).
  assert (gap (c :: g)) as G by (constructor; assumption).
  destruct B as [->|(d & u & -> & Hd)].
  - exists first, [({| x_gap := c :: g; x_line := [] |}, [])]. split.
    + split; [exact N|]. cbn [x_gap x_line]. split; [discriminate|]. split; [exact G|]. split; [intros []|].
      split; [intros (x & y & E & _); discriminate|]. split; [left; split; reflexivity|].
      split; [|exact I]. intros e _ (x & y & F). destruct x; discriminate.
    + unfold with_errors, error_text. cbn [map concat fst snd x_gap x_line]. rewrite !app_nil_r. reflexivity.
  - destruct (split_while (fun e => negb (ceq e cNL)) (d :: u)) as (line & piece & E & Fl & B).
    assert (line <> []) as NL.
    { destruct line as [|e line]; [|discriminate]. cbn [app] in E. subst piece. destruct B as [B|(e & v & B & He)]; [discriminate|].
      injection B as <- <-. apply negb_false_iff, ceq_eq in He. subst d. discriminate Hd. }
    assert (on_a_line line) as OL.
    { intros K. rewrite Forall_forall in Fl. apply Fl in K. rewrite ceq_refl in K. discriminate. }
    assert (~ starts_with_space line) as NS.
    { intros (e & v & -> & He). cbn [app] in E. injection E as <- _. rewrite He in Hd. discriminate. }
    assert (length piece < length (first ++ $"Error:" ++ c :: g ++ d :: u)) as LT.
    { rewrite E, !app_length. cbn [length]. rewrite !app_length. lia. }
    destruct (IH piece LT) as (first2 & more2 & OK & EP).
    exists first, (({| x_gap := c :: g; x_line := line |}, first2) :: more2). split.
    + split; [exact N|]. cbn [x_gap x_line]. split; [discriminate|]. split; [exact G|]. split; [exact OL|]. split; [exact NS|].
      split; [|exact OK]. destruct B as [->|(e & v & -> & He)].
      * left. destruct first2 as [|x first2]; [|discriminate]. destruct more2 as [|[[g2 l2] p2] more2]; [split; reflexivity|discriminate].
      * right. split; [exact NL|]. apply negb_false_iff, ceq_eq in He. subst e.
        destruct first2 as [|x first2]; [|injection EP as <- _; eexists; reflexivity].
        destruct more2 as [|[[g2 l2] p2] more2]; discriminate.
    + rewrite E, EP. unfold with_errors. cbn [map concat fst snd]. unfold error_text at 2. cbn [x_gap x_line]. rewrite <- !app_assoc. reflexivity.
Qed.
Lemma c108_every code s : exists first more, errors_ok first more /\ s = with_errors first more
  /\ build_recipe (Ended code s) = {| bd_code := code; bd_errors := map (fun x => error_text (fst x)) more |}.
Proof. destruct (every_output s) as (first & more & OK & ->). exists first, more. split; [exact OK|]. split; [reflexivity|]. apply c108, OK. Qed.
