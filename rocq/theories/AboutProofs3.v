(** C133, the end (proofs only). *)
From Verif Require Export AboutProofs2.
From Verif Require Import Lemmas FrameProofs FrameProofs2 PatchProofs PatchProofs2 PatchProofs3 PathProofs PathProofs2 RenderProofs RenderProofs2 SectionProofs SectionProofs2
  ContextProofs KeepProofs KeepProofs2 PlainProofs GoesProofs ConvertSpec PlainSpec VarsSpec AboutSpec AboutProofs AboutProofs2.

(** * Sections other than [about] were sorted before *)
Lemma split_at {A} (b1 b2 a1 a2 : list A) x y : b1 ++ x :: a1 = b2 ++ y :: a2 ->
  (b1 = b2 /\ x = y /\ a1 = a2) \/ (exists m, b2 = b1 ++ x :: m /\ a1 = m ++ y :: a2) \/ (exists m, b1 = b2 ++ y :: m /\ a2 = m ++ x :: a1).
Proof.
  revert b2; induction b1 as [|z b1 IH]; intros [|w b2] H; cbn [app] in H; injection H as H1 H2.
  - subst. auto.
  - subst. right. left. exists b2. auto.
  - subst. right. right. exists b1. auto.
  - subst. destruct (IH _ H2) as [(-> & -> & ->)|[(m & -> & ->)|(m & -> & ->)]]; [auto|right; left; exists m; auto|right; right; exists m; auto].
Qed.
Lemma with_lines_twice n p q : with_lines (with_lines n p) q = with_lines n q.
Proof. destruct n; reflexivity. Qed.
Lemma aside_about t r a before after : aside t r -> n_children t = before ++ a :: after -> called $"about" a -> (forall x, In x (before ++ after) -> ~ called $"about" x) ->
  exists before' after', n_children r = before' ++ a :: after' /\ (forall x, In x (before' ++ after') -> ~ called $"about" x)
  /\ forall a', rearranged (with_lines t (before ++ a' :: after)) (with_lines r (before' ++ a' :: after')).
Proof.
  intros H HC CA HN. induction H as [|r r' i q x H IH K HX NX].
  - exists before, after. split; [exact HC|]. split; [exact HN|]. intros a'. constructor.
  - destruct IH as (b & c & HR & HB & IH). inversion K as [|n b0 y y' c0 p HY K2]; subst.
    assert (x = y) as -> by (rewrite HY, nth_error_app2, Nat.sub_diag in HX by lia; cbn [nth_error] in HX; congruence).
    rewrite HR in HY. rewrite with_lines_children.
    assert (~ called $"about" y') as NY by (unfold called in *; rewrite (proj1 (like_one _ _ _ K2)); exact NX).
    destruct (split_at _ _ _ _ _ _ HY) as [(-> & -> & ->)|[(m & -> & ->)|(m & -> & ->)]].
    + contradiction.
    + exists b, (m ++ y' :: c0). split; [rewrite <- app_assoc; reflexivity|]. split.
      { intros z I. rewrite app_assoc in I. apply in_app_or in I as [I|[<-|I]]; [|exact NY|].
        - apply HB. rewrite app_assoc. apply in_or_app. left. exact I.
        - apply HB. rewrite app_assoc. apply in_or_app. right. right. exact I. }
      intros a'. eapply changed_again; [exact (IH a')|]. rewrite with_lines_twice.
      rewrite <- (with_lines_twice r (b ++ a' :: m ++ y :: c0) (b ++ a' :: m ++ y' :: c0)).
      change (b ++ a' :: m ++ y' :: c0) with (b ++ (a' :: m) ++ y' :: c0). rewrite app_assoc. eapply changed_below; [|exact K2].
      rewrite with_lines_children, <- app_assoc. reflexivity.
    + exists (b0 ++ y' :: m), c. split; [rewrite <- app_assoc; reflexivity|]. split.
      { intros z I. rewrite <- app_assoc in I. cbn [app] in I. apply in_app_or in I as [I|[<-|I]]; [|exact NY|].
        - apply HB. rewrite <- app_assoc. apply in_or_app. left. exact I.
        - apply HB. rewrite <- app_assoc. apply in_or_app. right. right. exact I. }
      intros a'. eapply changed_again; [exact (IH a')|]. rewrite with_lines_twice.
      rewrite <- (with_lines_twice r ((b0 ++ y :: m) ++ a' :: c) ((b0 ++ y' :: m) ++ a' :: c)). rewrite <- !app_assoc. cbn [app]. eapply changed_below; [|exact K2].
      rewrite with_lines_children. reflexivity.
Qed.

(** * What stays when the section [about] is written anew *)
Section Anew.
Context (root a : node) (before after l : list node).
Context (HC : n_children root = before ++ a :: after) (CA : called $"about" a) (HN : forall x, In x (before ++ after) -> ~ called $"about" x) (LM : n_lmf a = false).
Let root' := with_about root a before after l.
Lemma anew_in x : In x (n_children root') -> x = with_lines a l \/ In x (n_children root).
Proof.
  unfold root'. rewrite about_children, HC. intros I. apply in_app_or in I as [I|[<-|I]]; [right; apply in_or_app; auto|left; reflexivity|right; apply in_or_app; right; right; exact I].
Qed.
Lemma anew_called s : called s (with_lines a l) -> s = $"about".
Proof. unfold called in *. destruct a. cbn [with_lines n_value] in *. congruence. Qed.
Lemma anew_top s : top_line s root' -> top_line s root.
Proof.
  intros (x & I & C). apply anew_in in I as [->|I]; [|exists x; auto]. apply anew_called in C as ->. exists a. split; [rewrite HC; apply in_elt|exact CA].
Qed.
Lemma anew_section s c : s <> $"about" -> section_line s c root' -> section_line s c root.
Proof. intros N (x & b & I & C & J & D). apply anew_in in I as [->|I]; [apply anew_called in C; contradiction|]. exists x, b. auto. Qed.
Lemma anew_source c : source_line c root' -> source_line c root.
Proof.
  intros [H|(x & e & b & I & C & J)]; [left; apply anew_section; [discriminate|exact H]|]. apply anew_in in I as [->|I]; [apply anew_called in C; discriminate|].
  right. exists x, e, b. auto.
Qed.
Lemma anew_nothing : nothing_of false root -> nothing_of false root'.
Proof.
  intros (A & B & C). split; [|split].
  - intros s I H. exact (A s I (anew_top s H)).
  - intros s c I H. apply (B s c I). apply anew_section; [|exact H]. intros ->. apply (in_map fst) in I. cbn [fst] in I.
    assert (existsb (str_eqb $"about") (map fst (fields_of false)) = true) as X by (apply existsb_exists; exists $"about"; split; [exact I|apply str_eqb_eq; reflexivity]).
    vm_compute in X. discriminate.
  - intros c I H. exact (C c I (anew_source c H)).
Qed.
Lemma anew_context : context_node root' = context_node root.
Proof.
  rewrite !context_first. unfold root'. rewrite about_children, HC. apply first_middle; [|destruct a]; cbn [with_lines n_value] in *; unfold called in CA; cbn [n_value] in CA; rewrite CA; reflexivity.
Qed.
Lemma anew_value E k d : component k -> isdigit k = false -> first_named k l = first_named k (n_children a) ->
  get_value E root' (path_text [$"about"; k]) d None = get_value E root (path_text [$"about"; k]) d None.
Proof.
  intros C D F. assert (forall x, In x before -> ~ called $"about" x) as AF1 by (intros x I; apply HN; apply in_or_app; auto).
  assert (root = with_about root a before after (n_children a)) as HR0.
  { unfold with_about. assert (with_lines a (n_children a) = a) as -> by (destruct a; reflexivity). rewrite <- HC. destruct root; reflexivity. }
  unfold root'. rewrite HR0 at 2. rewrite (about_get root a before after CA AF1 LM E k l d C D), (about_get root a before after CA AF1 LM E k _ d C D), F. reflexivity.
Qed.
End Anew.
Lemma anew_ready T s s' a before after l : GoesProofs.ready T false s -> n_children (r_root (v1 s)) = before ++ a :: after -> called $"about" a ->
  (forall x, In x (before ++ after) -> ~ called $"about" x) -> n_lmf a = false -> (forall k, In k [$"license"; $"summary"] -> first_named k l = first_named k (n_children a)) ->
  r_root (v1 s') = with_about (r_root (v1 s)) a before after l -> proper_tree (r_root (v1 s')) = true -> GoesProofs.ready T false s'.
Proof.
  intros (P & (N & F) & S) HC CA HN LM HK HR HP. cbn [view fst] in N, F.
  assert (top_line $"about" (r_root (v1 s))) as TL by (exists a; split; [rewrite HC; apply in_elt|exact CA]).
  assert (forall k d, In k [$"license"; $"summary"] -> get_value (t_env T) (r_root (v1 s')) (path_text [$"about"; k]) d None = get_value (t_env T) (r_root (v1 s)) (path_text [$"about"; k]) d None) as G.
  { intros k d I. rewrite HR. apply anew_value; auto; destruct I as [<-|[<-|[]]]; (comp || reflexivity). }
  split; [exact HP|]. split.
  - split; cbn [view fst].
    + rewrite HR. apply anew_nothing; assumption.
    + intros _. destruct (F TL) as (F1 & F2). split.
      * change $"/about/license" with (path_text [$"about"; $"license"]). rewrite G by (left; reflexivity). exact F1.
      * change $"/about/summary" with (path_text [$"about"; $"summary"]). intros j. rewrite G by (right; left; reflexivity). apply F2.
  - intros _. destruct (S TL) as (v & V). exists v. change $"/about/summary" with (path_text [$"about"; $"summary"]). rewrite G by (right; left; reflexivity). exact V.
Qed.

(** * All of it *)
Lemma c133 T s ctx t t' d : let E := t_env T in let full := with_version (with_context ctx (r_root (v1 s))) in
  writes_version E -> (ctx <> [] -> writes_context E ctx) -> (forall l, Permutation (t_order T l) l) ->
  r_sel (v1 s) = [] -> NoDup (map fst (r_vars (v1 s))) -> entries_for (r_vars (v1 s)) ctx ->
  n_children (r_root (v1 s)) <> [] -> n_lmf (r_root (v1 s)) = false -> proper_tree (r_root (v1 s)) = true -> comments_have_paths E (r_root (v1 s)) ->
  addressable_document full = true -> expressions_fit E full -> renewed full t ->
  old_only_in_about t -> about_fine E (find_closest_license_match (t_close T) (t_licenses T)) t -> readable_parts E t ->
  about_in_order t -> about_renewed E t t' ->
  get_value E t $"/context" (Some (JDict [])) None = Ok (JDict d) ->
  exists text s' earlier ms later, without_errors (render_to_v1 T) s text s' /\ rearranged t' (r_root (v1 s')) /\ r_vars (v1 s') = dict_to_vtbl d
  /\ get_messages WARNING (msgs s') = get_messages WARNING (msgs s) ++ earlier ++ ms ++ later /\ told_of_dropped t about_no_longer ms.
Proof.
  cbv zeta. set (root := r_root (v1 s)). set (full := with_version (with_context ctx root)).
  intros HW HC HO HS ND HE NC LM HP CP AD XF RN NO HA (RS & RA) AO (before & a & after & kept & news & HCh & CA & HN & HK & HL & ->) GV.
  destruct (context_goes T s ctx t HW HC HO ND HE NC LM HP AD XF RN) as (PT & s0 & U2 & X0 & V0).
  assert (upgrade_selectors_to_conditionals T s = (Ok tt, s)) as U1.
  { unfold upgrade_selectors_to_conditionals, andthen, ask. rewrite HS. reflexivity. }
  assert (exists earlier, get_messages WARNING (msgs s0) = get_messages WARNING (msgs s) ++ earlier) as (earlier & W0).
  { destruct (walks_jinja T s (Ok tt) s0 U2) as (ps & W). exact (steps_grow _ _ _ _ WARNING W). }
  assert (GoesProofs.ready T false s0) as R0.
  { split; [|split; [split; cbn [view fst]; rewrite V0; assumption|unfold summary_fine; rewrite V0; exact RA]]. rewrite V0. exact PT. }
  destruct (goes_misspelled T false s0 R0) as (sa & Ma & Xa & Sa & Ra).
  assert (sources_fine T (r_root (v1 sa))) as SF.
  { assert (sa = s0) as ->.
    { pose proof (still_misspelled T false s0 (ready_nothing T false s0 R0)) as Y. congruence. }
    unfold sources_fine. rewrite V0. exact RS. }
  destruct (goes_sources T false sa Ra SF) as (sb & Mb & Xb & Sb & Rb).
  destruct (goes_build T false sb Rb) as (sc & Mc & Xc & Sc & Rc).
  destruct (goes_requirements T false sc Rc) as (sd & Md & Xd & Sd & Rd).
  pose proof (settled_trans _ _ _ Sa (settled_trans _ _ _ Sb (settled_trans _ _ _ Sc Sd))) as (RT & AN & KC & _ & AS).
  cbn [view fst] in RT, AN, KC, AS. rewrite V0 in RT, AN, KC, AS.
  destruct (aside_about t (r_root (v1 sd)) a before after AS HCh CA HN) as (before' & after' & HCh' & HN' & RR).
  destruct (AO a) as (LMa & ON & NN); [rewrite HCh; apply in_elt|exact CA|].
  assert (forall x, In x (n_children (r_root (v1 sd))) -> called $"about" x -> x = a) as OA.
  { intros x I C. rewrite HCh' in I. apply in_app_or in I as [I|[<-|I]]; [|reflexivity|]; exfalso; apply (HN' x); auto; apply in_or_app; auto. }
  assert (forall x, In x (n_children t) -> called $"about" x -> x = a) as OT.
  { intros x I C. rewrite HCh in I. apply in_app_or in I as [I|[<-|I]]; [|reflexivity|]; exfalso; apply (HN x); auto; apply in_or_app; auto. }
  assert (about_in_order (r_root (v1 sd))) as AO' by (intros x I C; rewrite (OA x I C); auto).
  assert (forall c, section_line $"about" c t <-> section_line $"about" c (r_root (v1 sd))) as SS.
  { intros c. split; intros (x & y & I & C & J).
    - rewrite (OT x I C) in *. exists a, y. split; [rewrite HCh'; apply in_elt|]. split; [exact CA|exact J].
    - rewrite (OA x I C) in *. exists a, y. split; [rewrite HCh; apply in_elt|]. split; [exact CA|exact J]. }
  assert (Forall2 (new_line (t_env T) (r_root (v1 sd))) about_new_names news) as HL'.
  { assert (forall cds ns, Forall2 (new_line (t_env T) t) cds ns -> Forall (fun cd => component (fst cd)) cds -> Forall2 (new_line (t_env T) (r_root (v1 sd))) cds ns) as X.
    { clear - AN SS. induction 1 as [|cd ls cds ns K _ IH]; intros FC; constructor; [|apply IH; inversion FC; assumption]. inversion FC as [|? ? FC1 _]; subst.
      inversion K as [c d0 NS|c d0 v x SL V W CX PX]; subst; [apply no_line; rewrite <- SS; exact NS|]. eapply this_line; [rewrite <- SS; exact SL|..]; eauto. cbn [fst] in FC1.
      rewrite (about_value (t_env T) (fun _ => None) t (r_root (v1 sd)) c None FC1 AN). exact V. }
    apply X; [exact HL|]. repeat (apply Forall_cons; [comp|]). apply Forall_nil. }
  destruct (about_goes T sd before' a after' kept news Rd HCh' CA HN' AO' HK HL') as (se & ms & Me & Xe & We & TD & Ve & Pe & FK).
  pose proof (anew_ready T sd se a before' after' (kept ++ concat news) Rd HCh' CA HN' LMa FK Ve Pe) as Re.
  destruct (goes_tests T false se Re) as (sf & Mf & Xf & Sf & Rf).
  destruct (goes_outputs T false [$"/"] sf Rf) as (sg & Mg & Xg & Sg & Rg).
  pose proof (settled_trans _ _ _ Sf Sg) as (RT2 & _ & KC2 & _ & _). cbn [view fst] in RT2, KC2. rewrite Ve in RT2, KC2.
  assert (upgrades T s = (Ok tt, sg)) as M1.
  { unfold upgrades. unfold andthen at 1. rewrite U1. unfold andthen at 1. rewrite U2. unfold andthen at 1, ask.
    rewrite (GoesProofs.package_paths T false _ (ready_nothing T false s0 R0)). unfold andthen at 1. rewrite Ma. unfold andthen at 1. rewrite Mb.
    unfold andthen at 1. rewrite Mc. unfold andthen at 1. rewrite Md. unfold andthen at 1. rewrite Me. unfold andthen at 1. rewrite Mf. exact Mg. }
  destruct (lost_goes T (get_comments_table (t_env T) root) sg (comment_keys _ _ CP)) as (s2 & M2 & V2 & X2).
  destruct (c83 T _ sg s2 M2) as (_ & W2 & _).
  destruct (finish_context T s2 d) as (s3 & M3 & X3 & V3 & R3).
  { rewrite V2, (context_value_at _ (r_root (v1 se)) (r_root (v1 sg))); [|rewrite Ve; exact KC2].
    rewrite (context_value_at _ t (r_root (v1 se))); [exact GV|]. rewrite Ve. transitivity (context_node (r_root (v1 sd))); [apply anew_context; assumption|exact KC]. }
  exists (render (t_env T) (v1 s3)), s3, earlier, ms. eexists. split; [split|split; [|split; [exact V3|split]]].
  - unfold render_to_v1. unfold andthen at 1, ask at 1. unfold andthen at 1. rewrite M1. unfold andthen at 1. fold root. rewrite M2. unfold andthen at 1. rewrite M3. reflexivity.
  - rewrite X3, X2, Xg, Xf, Xe, Xd, Xc, Xb, Xa. exact X0.
  - rewrite V2 in R3. exact (rearranged_trans _ _ _ (rearranged_trans _ _ _ (RR _) RT2) R3).
  - rewrite X3, W2, Xg, Xf, We, Xd, Xc, Xb, Xa, W0, <- !app_assoc. reflexivity.
  - clear - TD SS. induction TD as [|c cs ms S TD IH|c cs ms S TD IH]; [constructor|apply told_this; [apply SS; exact S|exact IH]|apply told_not; [rewrite SS; exact S|exact IH]].
Qed.
