(** C134, continued (proofs only): the sections one after the other. *)
From Verif Require Export RenameProofs2.
From Verif Require Import Lemmas FrameProofs FrameProofs2 PatchProofs PatchProofs2 PatchProofs3 PathProofs PathProofs2 RenderProofs RenderProofs2 SectionProofs SectionProofs2
  ContextProofs KeepProofs KeepProofs2 PlainProofs GoesProofs ConvertSpec PlainSpec VarsSpec AboutProofs AboutProofs2 AboutProofs3 RenameProofs RenameProofs2 RenameSpec.

Lemma known_fine t : In t known_names -> table_fine t = true.
Proof. intros I. unfold known_names in I. repeat (destruct I as [<-|I]; [vm_compute; reflexivity|]). destruct I. Qed.
Lemma known_once t t' : In t known_names -> In t' known_names -> fst t = fst t' -> t = t'.
Proof.
  intros I J. unfold known_names in I, J. repeat (destruct I as [<-|I]; [repeat (destruct J as [<-|J]; [intros H; first [reflexivity|exfalso; vm_compute in H; discriminate]|]); destruct J|]). destruct I.
Qed.
Lemma with_same n : with_lines n (n_children n) = n.
Proof. destruct n; reflexivity. Qed.
Lemma rearranged_value a b : rearranged a b -> n_value b = n_value a.
Proof. induction 1 as [|b c q R IH K]; [reflexivity|]. rewrite <- IH. exact (proj1 (like_one _ _ _ K)). Qed.
Lemma rearranged_here a l l' : Permutation l l' -> rearranged (with_lines a l) (with_lines a l').
Proof.
  intros P. eapply changed_again; [constructor|]. apply (changed_here order_changed). split; rewrite !with_lines_children; [exact P|]. rewrite with_lines_twice. reflexivity.
Qed.
Lemma rearranged_below before after n a b : rearranged a b -> rearranged (with_lines n (before ++ a :: after)) (with_lines n (before ++ b :: after)).
Proof.
  induction 1 as [|b c q R IH K]; [constructor|]. eapply changed_again; [exact IH|]. rewrite <- (with_lines_twice n (before ++ b :: after) (before ++ c :: after)).
  eapply changed_below; [apply with_lines_children|exact K].
Qed.
Lemma rearranged_all n : forall ls ls', Forall2 rearranged ls ls' -> rearranged (with_lines n ls) (with_lines n ls').
Proof.
  assert (forall ls ls', Forall2 rearranged ls ls' -> forall before, rearranged (with_lines n (before ++ ls)) (with_lines n (before ++ ls'))) as X.
  { induction 1 as [|a b ls ls' R H IH]; intros before; [constructor|]. eapply rearranged_trans; [apply rearranged_below; exact R|].
    specialize (IH (before ++ [b])). rewrite <- !app_assoc in IH. exact IH. }
  intros ls ls' H. exact (X ls ls' H []).
Qed.

Section Upto.
Context (T : tools) (t : node) (pairs : list (node * node)).
Let E := t_env T.
Context (pairs_are : map fst pairs = n_children t) (renewed_are : Forall (fun p => section_renewed E known_names t (fst p) (snd p)) pairs).
Context (in_order : forall tb, In tb known_names -> section_in_order tb t).
Definition now (todo : list str) (p : node * node) (b : node) : Prop :=
  n_value b = n_value (fst p) /\ ((exists sec, In sec todo /\ called sec (fst p)) -> b = fst p)
  /\ ((forall sec, In sec todo -> ~ called sec (fst p)) -> rearranged (snd p) b)
  /\ ((forall tb, In tb known_names -> ~ called (fst tb) (fst p)) -> b = fst p).
Definition upto (todo : list str) (r : node) : Prop := r = with_lines t (n_children r) /\ Forall2 (now todo) pairs (n_children r).
Lemma upto_start : upto (map fst known_names) t.
Proof.
  split; [symmetry; apply with_same|]. rewrite <- pairs_are. revert renewed_are. clear. intros RA. induction RA as [|p ps K H IH]; cbn [map]; constructor; [|exact IH].
  split; [reflexivity|]. split; [reflexivity|]. split; [|reflexivity]. intros N. inversion K as [a O|tb a others news I C]; subst; [constructor|]. exfalso. apply (N (fst tb)); [apply in_map; exact I|exact C].
Qed.
Lemma upto_end r : upto [] r -> rearranged (with_lines t (map snd pairs)) r.
Proof.
  intros (-> & H). rewrite with_lines_children in *. apply rearranged_all. revert H. generalize (n_children r). clear. induction pairs as [|p ps IH]; intros l H; inversion H as [|? b ? bs K H']; subst; constructor.
  - apply K. intros sec [].
  - apply IH. exact H'.
Qed.
Lemma upto_not sec todo r : upto (sec :: todo) r -> (forall x, In x (n_children r) -> ~ called sec x) -> upto todo r /\ ~ top_line sec t.
Proof.
  intros (HR & H) N. assert (forall x, In x (n_children t) -> ~ called sec x) as NT.
  { rewrite <- pairs_are. revert N H. generalize (n_children r). clear. induction pairs as [|p ps IH]; intros l N H; inversion H as [|? b ? bs K H']; subst; cbn [map]; intros x I; [destruct I|].
    destruct I as [<-|I]; [|exact (IH bs (fun y J => N y (or_intror J)) H' x I)]. intros C. apply (N b (or_introl eq_refl)). unfold called in *. rewrite (proj1 K). exact C. }
  split; [|intros (x & I & C); exact (NT x I C)]. split; [exact HR|]. rewrite <- pairs_are in NT. revert NT H. generalize (n_children r). clear. induction pairs as [|p ps IH]; intros l N H; inversion H as [|? b ? bs (K1 & K2 & K3 & K4) H']; subst; constructor.
  - split; [exact K1|]. split; [intros (s & I & C); apply K2; exists s; split; [right; exact I|exact C]|].
    split; [|exact K4]. intros M. apply K3. intros s [<-|I]; [apply N; left; reflexivity|exact (M s I)].
  - apply IH; [|exact H']. intros x I. apply N. right. exact I.
Qed.
(** One section that is there. *)
Definition opened (tb : names_of_section) (todo : list str) (r : node) (before : list node) (a : node) (after : list node) (news : list (list node)) : Prop :=
  n_children r = before ++ a :: after /\ called (fst tb) a /\ (forall x, In x before -> ~ called (fst tb) x)
  /\ n_lmf a = false /\ n_keyf a = true /\ (forall c, In c (old_names_of tb) -> once c (n_children a))
  /\ (forall d z, In d (map snd (fst (snd tb))) -> In z (n_children a) -> ~ called d z)
  /\ Forall2 (line_for T (n_children a)) (fst (snd tb)) news
  /\ (exists before0 after0, t = with_sec t a before0 after0 (n_children a) /\ (forall x, In x (before0 ++ after0) -> ~ called (fst tb) x))
  /\ (forall l', Permutation (taken_all (old_names_of tb) (n_children a) ++ concat news) l' -> upto todo (with_sec r a before after l')).
Lemma open_sec tb todo r : In tb known_names -> ~ In (fst tb) todo -> upto (fst tb :: todo) r ->
  (upto todo r /\ ~ top_line (fst tb) t /\ forall x, In x (n_children r) -> ~ called (fst tb) x)
  \/ exists before a after news, opened tb todo r before a after news.
Proof.
  intros KN NI U. destruct (find_line (fst tb) (n_children r)) as [(before & a & after & HR & CA & AF)|N].
  2:{ left. destruct (upto_not _ _ _ U N) as (A & B). auto. }
  right. destruct U as (HW & H). rewrite HR in H.
  destruct (Forall2_app_inv_r _ _ H) as (ps1 & ps' & H1 & H2 & HP). inversion H2 as [|p ? ps2 ? K H3]; subst ps'. subst. clear H2.
  assert (called (fst tb) (fst p)) as CP by (unfold called in *; rewrite <- (proj1 K); exact CA).
  assert (a = fst p) as HA by (apply (proj1 (proj2 K)); exists (fst tb); split; [left; reflexivity|exact CP]).
  assert (n_children t = map fst ps1 ++ a :: map fst ps2) as HT by (rewrite <- pairs_are, HP, map_app, HA; reflexivity).
  destruct (in_order tb KN _ _ _ HT CA) as (LM & KY & UN & ON & NN).
  assert (section_renewed E known_names t a (snd p)) as SR.
  { rewrite HA. rewrite Forall_forall in renewed_are. apply (renewed_are p). rewrite HP. apply in_elt. }
  remember (snd p) as q eqn:HQ. inversion SR as [x O HX HY|tb' x others news I C OL RL HX HY]; try subst x.
  { exfalso. refine (O tb KN _). congruence. }
  assert (tb' = tb) as -> by (apply known_once; [exact I|exact KN|unfold called in *; congruence]).
  pose proof (known_fine tb KN) as FN. assert (component (fst tb) /\ isdigit (fst tb) = false) as (SC & SD) by (unfold table_fine in FN; rewrite !andb_true_iff in FN; apply plain_name_is; tauto).
  assert (t = with_sec t a (map fst ps1) (map fst ps2) (n_children a)) as HTS by (unfold with_sec; rewrite with_same, <- HT; symmetry; apply with_same).
  exists before, a, after, news. split; [exact HR|]. split; [exact CA|]. split; [exact AF|]. split; [exact LM|]. split; [exact KY|].
  split; [intros c J m1 x m2 HC CX; exact (ON c m1 x m2 J HC CX)|].
  split; [intros d z J Z; apply in_map_iff in J as ((c & d') & <- & J); exact (NN c d' z J Z)|].
  split; [|split; [exists (map fst ps1), (map fst ps2); split; [exact HTS|exact UN]|]].
  - assert (Forall (fun cd => component (fst cd) /\ isdigit (fst cd) = false) (fst (snd tb))) as FC.
    { unfold table_fine in FN. rewrite !andb_true_iff in FN. destruct FN as ((_ & F) & _). rewrite forallb_forall in F. apply Forall_forall. intros cd J. specialize (F cd J).
      unfold two_names in F. rewrite !andb_true_iff in F. apply plain_name_is. tauto. }
    assert (forall x, In x (map fst ps1) -> ~ called (fst tb) x) as AF0 by (intros x J; apply UN; apply in_or_app; left; exact J).
    revert RL FC. clear - HT HTS UN CA LM KY SC SD AF0. induction 1 as [|cd ls cds lss K H IH]; intros FC; constructor; inversion FC as [|? ? (C & D) FC']; subst; [|apply IH; exact FC'].
    inversion K as [c d NS|c d v x SL V W CX PX]; subst; cbn [fst snd] in *.
    + left. split; [|reflexivity]. cbn [fst]. destruct (first_named c (n_children a)) as [n|] eqn:F; [|reflexivity]. exfalso. apply NS. destruct (first_split c _ n F) as (m1 & m2 & HM & CN & _).
      exists a, n. split; [rewrite HT; apply in_elt|]. split; [exact CA|]. split; [rewrite HM; apply in_elt|exact CN].
    + right. cbn [fst snd]. rewrite HTS, (sec_get (fst tb) SC SD t a _ _ CA AF0 LM KY E c (n_children a) None C D) in V. destruct (first_named c (n_children a)) as [n|] eqn:F; [|discriminate].
      exists n, v, x. auto 8.
  - intros l' P. rewrite <- (others_are _ _ _ OL) in P. split.
    + unfold with_sec at 1. rewrite HW at 1. rewrite with_lines_twice, sec_children. reflexivity.
    + rewrite sec_children, HP.
      assert (forall ps bs, (forall x, In x (map fst ps) -> ~ called (fst tb) x) -> Forall2 (now (fst tb :: todo)) ps bs -> Forall2 (now todo) ps bs) as KEEP.
      { clear. induction ps as [|q ps IH]; intros bs N H; inversion H as [|? b ? bs' (K1 & K2 & K3 & K4) H']; subst; constructor.
        - split; [exact K1|]. split; [intros (s & I & C); apply K2; exists s; split; [right; exact I|exact C]|]. split; [|exact K4]. intros M. apply K3. intros s [<-|I]; [apply N; left; reflexivity|exact (M s I)].
        - apply IH; [|exact H']. intros x I. apply N. right. exact I. }
      apply Forall2_app; [apply KEEP; [intros x J; apply UN; apply in_or_app; left; exact J|exact H1]|]. constructor; [|apply KEEP; [intros x J; apply UN; apply in_or_app; right; exact J|exact H3]].
      split; [rewrite <- HA; destruct a; reflexivity|]. split.
      * intros (s & J & C'). exfalso. apply NI. assert (s = fst tb) as <- by (unfold called in *; congruence). exact J.
      * split; [intros _; rewrite <- HQ, <- HY; apply rearranged_here; exact P|]. intros N. exfalso. exact (N tb KN CP).
Qed.
Lemma still_no_line sec todo r c : upto todo r -> In sec todo -> ~ section_line sec c t -> ~ section_line sec c r.
Proof.
  intros (_ & H) I N (x & y & J & C & K & D). apply N. destruct (In_nth_error _ _ J) as (i & HI).
  assert (exists p, In p pairs /\ now todo p x) as (p & IP & K1 & K2 & _).
  { revert i HI. clear - H. induction H as [|p b ps bs K H IH]; intros [|i] HI; cbn [nth_error] in HI; try discriminate.
    - injection HI as <-. exists p. split; [left; reflexivity|exact K].
    - destruct (IH i HI) as (q & A & B). exists q. split; [right; exact A|exact B]. }
  assert (called sec (fst p)) as CP by (unfold called in *; rewrite <- K1; exact C).
  assert (x = fst p) as -> by (apply K2; exists sec; auto). exists (fst p), y. split; [rewrite <- pairs_are; apply in_map; exact IP|]. auto.
Qed.
Lemma still_no_top sec todo r : upto todo r -> ~ top_line sec t -> ~ top_line sec r.
Proof.
  intros (_ & H) N (x & J & C). apply N. destruct (In_nth_error _ _ J) as (i & HI).
  assert (exists p, In p pairs /\ now todo p x) as (p & IP & K1 & _).
  { revert i HI. clear - H. induction H as [|p b ps bs K H IH]; intros [|i] HI; cbn [nth_error] in HI; try discriminate.
    - injection HI as <-. exists p. split; [left; reflexivity|exact K].
    - destruct (IH i HI) as (q & A & B). exists q. split; [right; exact A|exact B]. }
  exists (fst p). split; [rewrite <- pairs_are; apply in_map; exact IP|]. unfold called in *. rewrite <- K1. exact C.
Qed.
Lemma upto_context todo r : upto todo r -> context_node r = context_node t.
Proof.
  intros (_ & H). rewrite !context_first, <- pairs_are. revert H. generalize (n_children r). clear. induction pairs as [|p ps IH]; intros l H; inversion H as [|? b ? bs (K1 & _ & _ & K4) H']; subst; cbn [map]; [reflexivity|].
  rewrite !first_cons, K1, (IH bs H'). destruct (val_is (n_value (fst p)) $"context") eqn:V; [|reflexivity]. rewrite K4; [reflexivity|].
  intros tb I C. unfold called in C. rewrite C in V. unfold known_names in I. repeat (destruct I as [<-|I]; [vm_compute in V; discriminate|]). destruct I.
Qed.
End Upto.
