(** Proofs for C142: bump-recipe on the file that it has written. *)
From Verif Require Import PathProofs PathProofs2 PatchProofs CommandsProofs LayoutProofs8 BumpProofs DepsProofs2 TwiceSpec.

(** The value is there. *)
Definition front (k : str) (A : list item) : Prop := (isdigit k = false /\ no_entry k A) \/ (isdigit k = true /\ int_of k = elements A).
Inductive holds : list str -> json -> list item -> Prop :=
| holds_in k p u A y B : front k A -> in_item k p u y -> holds (k :: p) u (A ++ y :: B)
with in_item : str -> list str -> json -> item -> Prop :=
| in_here k u : isdigit k = false -> in_item k [] u (IScalar (PStr k) u [])
| in_section k p u c cs : isdigit k = false -> holds p u cs -> in_item k p u (ISection (PStr k) c cs)
| in_beside_scalar i k p u key w c rest : isdigit i = true -> isdigit k = false -> key <> PStr k -> holds (k :: p) u rest ->
    in_item i (k :: p) u (IMapScalar key w c rest)
| in_beside_section i k p u key c cs rest : isdigit i = true -> isdigit k = false -> key <> PStr k -> holds (k :: p) u rest ->
    in_item i (k :: p) u (IMapSection key c cs rest).
Scheme holds_mut := Induction for holds Sort Prop with in_item_mut := Induction for in_item Sort Prop.
Lemma set_holds p v v' xs xs' : value_set p v v' xs xs' -> holds p v' xs'.
Proof.
  induction 1; (apply holds_in; [unfold front; auto|constructor; auto]).
Qed.
Lemma holds_set p u xs : holds p u xs -> value_set p u u xs xs.
Proof.
  revert p u xs. apply (holds_mut (fun p u xs _ => value_set p u u xs xs)
    (fun k p u y _ => forall A B, front k A -> value_set (k :: p) u u (A ++ y :: B) (A ++ y :: B))).
  - intros k p u A y B HF _ H. apply H, HF.
  - intros k u D A B [[_ NE]|[D' _]]; [constructor; auto|congruence].
  - intros k p u c cs D _ H A B [[_ NE]|[D' _]]; [constructor; auto|congruence].
  - intros i k p u key w c rest D Dk HK _ H A B [[D' _]|[_ HI]]; [congruence|constructor; auto].
  - intros i k p u key c cs rest D Dk HK _ H A B [[D' _]|[_ HI]]; [congruence|constructor; auto].
Qed.
(** Entries with the same head: key and kind. *)
Definition alike (x x' : item) : Prop :=
  match x, x' with
  | IScalar k _ _, IScalar k' _ _ => k = k'
  | ISection k _ _, ISection k' _ _ => k = k'
  | IMapScalar k _ _ _, IMapScalar k' _ _ _ => k = k'
  | IMapSection k _ _ _, IMapSection k' _ _ _ => k = k'
  | _, _ => False
  end.
Lemma alike_entry k A x x' M : alike x x' -> no_entry k (A ++ x :: M) -> no_entry k (A ++ x' :: M).
Proof.
  intros HA H y I. apply in_app_iff in I as [I|[<-|I]]; [apply H, in_app_iff; auto| |apply H, in_app_iff; cbn [In]; auto].
  specialize (H x ltac:(apply in_app_iff; cbn [In]; auto)). destruct x, x'; try contradiction HA; cbn [alike] in HA; subst; cbn [entry_key] in *; (split; [apply H|intros; discriminate]).
Qed.
Lemma alike_elements A x x' M : alike x x' -> elements (A ++ x :: M) = elements (A ++ x' :: M).
Proof.
  intros HA. unfold elements. rewrite !filter_app, !app_length. f_equal. cbn [filter]. destruct x, x'; try contradiction HA; reflexivity.
Qed.

Lemma alike_front k A x x' M : alike x x' -> front k (A ++ x :: M) -> front k (A ++ x' :: M).
Proof.
  intros HA [[D H]|[D H]]; [left|right]; (split; [exact D|]); [exact (alike_entry _ _ _ _ _ HA H)|rewrite <- (alike_elements _ _ _ _ HA); exact H].
Qed.
(** Different places. *)
Inductive apart : list str -> list str -> Prop :=
| apart_names a b p q : isdigit a = false -> isdigit b = false -> a <> b -> apart (a :: p) (b :: q)
| apart_numbers a b p q : isdigit a = true -> isdigit b = true -> int_of a <> int_of b -> apart (a :: p) (b :: q)
| apart_below a p q : apart p q -> apart (a :: p) (a :: q).
Lemma two_places {T} (A : list T) : forall x B A' x' B', A ++ x :: B = A' ++ x' :: B' ->
  (A = A' /\ x = x' /\ B = B') \/ (exists M, A' = A ++ x :: M /\ B = M ++ x' :: B') \/ (exists M, A = A' ++ x' :: M /\ B' = M ++ x :: B).
Proof.
  induction A as [|a A IH]; intros x B [|a' A'] x' B' H; cbn [app] in H.
  - injection H as -> ->. auto.
  - injection H as -> ->. right. left. exists A'. auto.
  - injection H as -> <-. right. right. exists A. auto.
  - injection H as <- H. destruct (IH _ _ _ _ _ H) as [(-> & -> & ->)|[(M & -> & ->)|(M & -> & ->)]]; [auto|right; left; exists M; auto|right; right; exists M; auto].
Qed.
(** Whatever is held elsewhere stays. *)
Lemma stays_at b q u A x x' B : alike x x' -> holds (b :: q) u (A ++ x :: B) -> (front b A -> in_item b q u x -> in_item b q u x') ->
  holds (b :: q) u (A ++ x' :: B).
Proof.
  intros HA H HX. inversion H as [k p u' A2 y B2 HF HI EK EU EL]; subst. symmetry in EL.
  destruct (two_places _ _ _ _ _ _ EL) as [(<- & <- & <-)|[(M & -> & ->)|(M & -> & ->)]].
  - apply holds_in; auto.
  - replace (A ++ x' :: M ++ y :: B2) with ((A ++ x' :: M) ++ y :: B2) by (rewrite <- app_assoc; reflexivity). apply holds_in; auto. exact (alike_front _ _ _ _ _ HA HF).
  - rewrite <- app_assoc. cbn [app]. apply holds_in; auto.
Qed.
Lemma stays p v v' xs xs' : value_set p v v' xs xs' -> forall q u, holds q u xs -> apart p q -> holds q u xs'.
Proof.
  induction 1 as [k v v' A B D NE|k p v v' c cs cs' A B D NE H IH|i k p v v' key w c rest rest' A B D HI Dk HK H IH
    |i k p v v' key c cs rest rest' A B D HI Dk HK H IH]; intros q u HH HA.
  - destruct q as [|b q]; [inversion HH|]. apply (stays_at b q u A _ _ B) with (2 := HH); [reflexivity|]. intros HF HX. exfalso.
    inversion HA; subst; [inversion HX; congruence|congruence|match goal with N : apart [] _ |- _ => inversion N end].
  - destruct q as [|b q]; [inversion HH|]. apply (stays_at b q u A _ _ B) with (2 := HH); [reflexivity|]. intros HF HX.
    inversion HA; subst; [inversion HX; congruence|congruence|]. inversion HX; subst. constructor; auto.
  - destruct q as [|b q]; [inversion HH|]. apply (stays_at b q u A _ _ B) with (2 := HH); [reflexivity|]. intros HF HX.
    inversion HA; subst; [congruence|destruct HF as [[]|[]]; congruence|]. inversion HX; subst. constructor; auto.
  - destruct q as [|b q]; [inversion HH|]. apply (stays_at b q u A _ _ B) with (2 := HH); [reflexivity|]. intros HF HX.
    inversion HA; subst; [congruence|destruct HF as [[]|[]]; congruence|]. inversion HX; subst. constructor; auto.
Qed.

(** * Checksums *)
Definition source_path (cs : list str) : Prop := cs = [$"source"] \/ exists i, cs = [$"source"; str_of_nat i].
Lemma source_path_component cs : source_path cs -> Forall component cs /\ cs <> [].
Proof.
  assert (component $"source") as HC by (split; [discriminate|]; vm_compute; intuition discriminate).
  intros [->|(i & ->)]; split; try discriminate; repeat constructor; auto; try apply HC; apply source_component.
Qed.
Lemma source_key_path cs : Forall component cs -> source_key (path_text cs) -> source_path cs.
Proof.
  intros F H. assert (cs <> []) as NE by (intros ->; destruct H as [H|(i & H)]; discriminate H).
  destruct H as [H|(i & H)].
  - left. apply path_text_inj; auto; [discriminate|apply (source_path_component [$"source"]); left; reflexivity].
  - right. exists i. apply path_text_inj; auto; [discriminate|apply (source_path_component [$"source"; str_of_nat i]); right; eauto].
Qed.
(** Keys of archives that are different places. *)
Definition all_apart (l : list (str * (str * str))) : Prop :=
  NoDup (map fst l) /\ Forall source_key (map fst l) /\ (In $"/source" (map fst l) -> length l <= 1).
Lemma sums_apart a x l b : all_apart (a :: l) -> In x l -> path_text b = fst x -> Forall component b -> forall c, path_text c = fst a -> Forall component c ->
  apart (b ++ [$"sha256"]) (c ++ [$"sha256"]).
Proof.
  intros (ND & F & HS) I Eb Fb c Ec Fc. rewrite Forall_forall in F.
  assert (In (fst x) (map fst l)) as Ix by (apply in_map; exact I).
  assert (source_path b) as Sb by (apply source_key_path; auto; rewrite Eb; apply F; right; exact Ix).
  assert (source_path c) as Sc by (apply source_key_path; auto; rewrite Ec; apply F; left; reflexivity).
  assert (length (a :: l) <= 1 -> False) as L by (destruct l; [destruct I|cbn [length]; lia]).
  destruct Sb as [->|(i & ->)]; [exfalso; apply L, HS; right; change $"/source" with (path_text [$"source"]); rewrite Eb; exact Ix|].
  destruct Sc as [->|(j & ->)]; [exfalso; apply L, HS; left; rewrite <- Ec; reflexivity|].
  cbn [app]. apply apart_below, apart_numbers; try apply number_text. rewrite !(proj2 (number_text _)). intros ->.
  inversion ND as [|? ? NI _]; subst. apply NI. rewrite <- Ec, Eb. exact Ix.
Qed.
Lemma sums_keep E N l xs xs' : sums_written E N l xs xs' -> forall q u, holds q u xs ->
  (forall x b, In x l -> path_text b = fst x -> Forall component b -> apart (b ++ [$"sha256"]) q) -> holds q u xs'.
Proof.
  induction 1 as [xs|cs name url t old l xs xs1 xs' F HC HW HV HS IH]; intros q u HH HA; auto.
  apply IH.
  - apply (stays _ _ _ _ _ HV _ _ HH). apply (HA (path_text cs, (name, url))); auto. left. reflexivity.
  - intros x b I. apply HA. right. exact I.
Qed.
Lemma all_apart_tail a l : all_apart (a :: l) -> all_apart l.
Proof.
  intros (ND & F & HS). inversion ND; inversion F; subst. split; [auto|]. split; [auto|]. intros I. specialize (HS (or_intror I)). cbn [length] in HS. lia.
Qed.
(** What holds of one archive. *)
Definition sum_held (E : env) (N : net) (xs : list item) (x : str * (str * str)) : Prop :=
  exists cs name url t, x = (path_text cs, (name, url)) /\ Forall component cs /\ checksum N (path_text cs) name url t
  /\ writes_plain E (JStr t) /\ holds (cs ++ [$"sha256"]) (JStr t) xs.
Lemma sums_held E N l xs xs' : sums_written E N l xs xs' -> all_apart l -> Forall (sum_held E N xs') l.
Proof.
  induction 1 as [xs|cs name url t old l xs xs1 xs' F HC HW HV HS IH]; intros HA; constructor.
  - exists cs, name, url, t. split; [reflexivity|]. split; [exact F|]. split; [exact HC|]. split; [exact HW|].
    apply (sums_keep _ _ _ _ _ HS); [exact (set_holds _ _ _ _ _ HV)|]. intros x b I Eb Fb. exact (sums_apart _ _ _ _ HA I Eb Fb cs eq_refl F).
  - apply IH, (all_apart_tail _ _ HA).
Qed.
Lemma held_sums E N l xs : Forall (sum_held E N xs) l -> sums_written E N l xs xs.
Proof.
  induction 1 as [|x l (cs & name & url & t & -> & F & HC & HW & HH) _ IH]; [constructor|].
  exact (sums_next E N cs name url t (JStr t) l xs xs xs F HC HW (holds_set _ _ _ HH) IH).
Qed.
Lemma source_other a b p : isdigit a = false -> $"source" <> a -> source_path b -> apart (b ++ [$"sha256"]) (a :: p).
Proof. intros D NE [->|(i & ->)]; cbn [app]; apply apart_names; auto. Qed.
Lemma archives_apart E N r tbl : (forall l, Permutation (n_order N l) l) -> from_recipe E r true = Ok tbl -> all_apart (n_order N (archives tbl)).
Proof.
  intros HP H. apply from_recipe_keys in H as (F & ND & HS). rewrite archives_are. destruct (archive_keys tbl ND) as [ND' SUB].
  assert (Permutation (map fst (n_order N (http_sources tbl))) (map fst (http_sources tbl))) as P by (apply Permutation_map, HP).
  split; [exact (Permutation_NoDup (Permutation_sym P) ND')|]. split.
  - apply Forall_forall. intros k I. rewrite Forall_forall in F. apply F, SUB. exact (Permutation_in _ P I).
  - intros I. apply (Permutation_in _ P), SUB, HS in I. rewrite (Permutation_length (HP _)). destruct tbl as [|[k [|]] [|]]; cbn in *; lia.
Qed.
(** * The whole run *)
Lemma sum_name_not_version k : In k sum_names -> k <> $"version".
Proof. intros I ->. vm_compute in I. repeat destruct I as [I|I]; try discriminate; contradiction. Qed.
Lemma variable_again k v vars vars' : variable_set k v vars vars' -> variable_set k v vars' vars'.
Proof. intros (A & w & B & -> & ->). exists A, v, B. auto. Qed.
Lemma other_variable k v vars vars' k' w : variable_set k v vars vars' -> k' <> k -> In (k', w) vars' <-> In (k', w) vars.
Proof.
  intros (A & w' & B & -> & ->) NE. rewrite !in_app_iff. cbn [In]. split; (intros [I|[I|I]]; [auto|injection I as <- <-; contradiction|auto]).
Qed.
Lemma variable_there k v vars : In (k, v) vars -> variable_set k v vars vars.
Proof. intros I. apply in_split in I as (A & B & ->). exists A, v, B. auto. Qed.
Lemma bumped_first E N o target xs vars xs' vars' : b_build_num o = false -> b_target o = Some target -> bumped_to E N target xs vars xs' vars' ->
  file_bumped E N o xs vars xs' vars'.
Proof. intros HB HT (xs1 & xs2 & vars2 & H1 & H2 & H3 & _). exists xs1. rewrite HB, HT. eauto 6. Qed.
Lemma bumped_again E N o target xs vars xs' vars' : (forall l, Permutation (n_order N l) l) -> b_build_num o = false -> b_target o = Some target ->
  bumped_to E N target xs vars xs' vars' -> file_bumped E N o xs' vars' xs' vars'.
Proof.
  intros HP HB HT (xs1 & xs2 & vars2 & (_ & n & HW & HN) & (_ & HV) & (tbl & HTB & HS) & (ES & EV) & RB & RV).
  assert (forall q u, holds q u xs2 -> (forall b, source_path b -> apart (b ++ [$"sha256"]) q) -> holds q u xs') as KEEP.
  { destruct HS as [(k & name & url & t & _ & _ & -> & _)|(_ & _ & HS)]; [auto|]. intros q u HH HA.
    apply (sums_keep _ _ _ _ _ HS _ _ HH). intros x b I Eb Fb. apply HA, source_key_path; auto. rewrite Eb.
    destruct (archives_apart E N _ tbl HP HTB) as (_ & F & _). rewrite Forall_forall in F. apply F, in_map, I. }
  assert (holds [$"build"; $"number"] (JInt 0) xs2) as H0.
  { pose proof (set_holds _ _ _ _ _ HN) as H0. destruct HV as [(w & _ & _ & -> & _)|(_ & _ & _ & old & HV)]; [exact H0|].
    apply (stays _ _ _ _ _ HV _ _ H0). apply apart_names; [reflexivity|reflexivity|discriminate]. }
  exists xs'. rewrite HB, HT. split.
  - split; [exact RB|]. exists 0%Z. split; [exact HW|]. apply holds_set, KEEP; [exact H0|]. intros b. apply source_other; [reflexivity|discriminate].
  - exists xs', vars'. split.
    + split; [exact RV|]. destruct HV as [(w & IV & NW & -> & SV)|(NV & -> & HWP & old & HV)].
      * left. exists (JStr target). assert (In ($"version", JStr target) vars') as I.
        { assert (In ($"version", JStr target) vars2) as I by (destruct SV as (A & w' & B & _ & ->); apply in_app_iff; right; left; reflexivity).
          destruct HS as [(k & name & url & t & (HK & _) & _ & _ & VS)|(_ & -> & _)]; [|exact I].
          apply (other_variable _ _ _ _ $"version" _ VS); [|exact I]. intros EK. exact (sum_name_not_version k HK (eq_sym EK)). }
        split; [exact I|]. split; [discriminate|]. split; [reflexivity|]. exact (variable_there _ _ _ I).
      * right. split.
        { intros w I. apply NV. destruct HS as [(k & name & url & t & (HK & _) & _ & _ & VS)|(_ & -> & _)]; [|exact I].
          apply (other_variable _ _ _ _ $"version" _ VS) in I; [exact I|]. intros EK. exact (sum_name_not_version k HK (eq_sym EK)). }
        split; [reflexivity|]. split; [exact HWP|]. exists (JStr target). apply holds_set, KEEP; [exact (set_holds _ _ _ _ _ HV)|].
        intros b. apply source_other; [reflexivity|discriminate].
    + exists tbl. split; [rewrite <- ES; exact HTB|]. destruct HS as [(k & name & url & t & HI & HC & -> & VS)|(NI & -> & HS)].
      * left. exists k, name, url, t. split; [apply EV; exact HI|]. split; [exact HC|]. split; [reflexivity|]. exact (variable_again _ _ _ _ VS).
      * right. split; [intros k name url HI; apply EV in HI; exact (NI _ _ _ HI)|]. split; [reflexivity|].
        apply held_sums, (sums_held _ _ _ _ _ HS). exact (archives_apart E N _ tbl HP HTB).
Qed.
Lemma c142 E N variants o target written xs vars xs' vars' : (forall v, In v variants <-> In v HASH_TYPE_VARIANTS) ->
  (forall l, Permutation (n_order N l) l) -> valid_options o -> b_build_num o = false -> b_target o = Some target -> b_dry_run o = false ->
  canonical_recipe E xs vars -> canonical_recipe E xs' vars' ->
  no_mark (join NLs (recipe_page xs vars)) -> no_mark (join NLs (recipe_page xs' vars')) ->
  bumped_to E N target xs vars xs' vars' ->
  let text := join NLs (recipe_page xs vars) in let text' := join NLs (recipe_page xs' vars') in
  let end_ := match written with None => Exit SUCCESS | Some e => Raise e end in
  bump_recipe E N variants o (ReadOk text) written = (end_, [Write text'])
  /\ bump_recipe E N variants o (ReadOk text') written = (end_, [Write text']).
Proof.
  intros HV HP VO HB HT HD C C' M M' HF. cbv zeta.
  rewrite (c137 E N variants o written xs vars xs' vars' HV HP VO C C' M (bumped_first _ _ _ _ _ _ _ _ HB HT HF)).
  rewrite (c137 E N variants o written xs' vars' xs' vars' HV HP VO C' C' M' (bumped_again _ _ _ _ _ _ _ _ HP HB HT HF)).
  cbv zeta. rewrite HD. auto.
Qed.
