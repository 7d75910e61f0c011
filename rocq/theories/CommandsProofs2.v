(** Proofs about the commands: the values bump-recipe leaves behind. *)
From Verif Require Import FrameProofs FrameProofs2 DepsProofs ServiceProofs CommandsProofs CommandsSpec.

(** * Plain words on a line *)
Definition plain_char (c : ascii) : bool := is_word c || ceq c "-"%char || ceq c "."%char.
Lemma plain_char_facts c : plain_char c = true ->
  is_space c = false /\ c <> cHASH /\ c <> ":"%char /\ c <> "{"%char /\ is_linebreak c = false /\ c <> cSL /\ c <> cNL.
Proof.
  destruct c as [[] [] [] [] [] [] [] []]; intros H; try (vm_compute in H; discriminate);
  (split; [reflexivity|]; split; [discriminate|]; split; [discriminate|]; split; [discriminate|]; split; [reflexivity|]; split; discriminate).
Qed.
Lemma plain_word_one_line E t j : t <> [] -> forallb plain_char t = true -> read_as E t j -> one_line E t j.
Proof.
  intros HN HP HR. rewrite forallb_forall in HP.
  assert (forall a b c, t = a ++ c :: b -> plain_char c = true) as HM
    by (intros a b c ->; apply HP, in_or_app; right; left; reflexivity).
  split; [|split; [|split; [|split; [|split]]]]; auto.
  - destruct t as [|c t]; [contradiction|]. exists c, t. split; auto.
    destruct (plain_char_facts c (HP c (or_introl eq_refl))) as (H1 & H2 & _). auto.
  - intros a c E1. apply (plain_char_facts c). eapply (HM a []). exact E1.
  - intros (a & c & b & E1 & Hc). assert (plain_char c = true) as H by (eapply HM; exact E1).
    apply plain_char_facts in H. destruct H. congruence.
  - intros (a & w & c & b & E1 & _). assert (plain_char ":"%char = true) as H.
    { eapply (HM a (w ++ c :: b)). exact E1. }
    vm_compute in H. discriminate.
  - split; [|split].
    + intros c Hc. apply (plain_char_facts c). auto.
    + intros (a & b & E1). assert (plain_char "{"%char = true) as H by (eapply (HM a ("%"%char :: b)); rewrite E1; reflexivity).
      vm_compute in H. discriminate.
    + intros (a & b & E1). assert (plain_char "{"%char = true) as H by (eapply (HM a ("#"%char :: b)); rewrite E1; reflexivity).
      vm_compute in H. discriminate.
Qed.
Lemma digit_plain k : k < 10 -> plain_char (ch (48 + k)) = true.
Proof. intros H. do 10 (destruct k as [|k]; [reflexivity|]). lia. Qed.
Fixpoint digits_of (fuel : nat) (n : N) (acc : str) : str :=
  match fuel with
  | 0 => acc
  | S f => if (n <? 10)%N then ch (48 + N.to_nat (n mod 10)%N) :: acc
           else digits_of f (n / 10)%N (ch (48 + N.to_nat (n mod 10)%N) :: acc)
  end.
Lemma digits_of_plain fuel : forall m acc, forallb plain_char acc = true -> forallb plain_char (digits_of fuel m acc) = true
  /\ (fuel <> 0 \/ acc <> [] -> digits_of fuel m acc <> []).
Proof.
  induction fuel as [|fuel IH]; intros m acc HA.
  - cbn. split; auto. intros [H|H]; auto.
  - assert (forallb plain_char (ch (48 + N.to_nat (m mod 10)) :: acc) = true) as HC.
    { cbn [forallb]. rewrite digit_plain, HA; auto. pose proof (N.mod_lt m 10). lia. }
    cbn [digits_of]. destruct (m <? 10)%N.
    + split; auto. intros _. discriminate.
    + destruct (IH (m / 10)%N _ HC) as (H1 & H2). split; auto. intros _. apply H2. right. discriminate.
Qed.
Lemma str_of_N_plain n : forallb plain_char (str_of_N n) = true /\ str_of_N n <> [].
Proof.
  change (str_of_N n) with (digits_of (S (N.to_nat (N.log2 n))) n []).
  destruct (digits_of_plain (S (N.to_nat (N.log2 n))) n [] eq_refl) as (H1 & H2). split; auto.
Qed.
Lemma integer_reads E z : reads_integer E z -> scalar_reads E (JInt z) (PInt z).
Proof.
  intros H. split; [eauto|]. split; [|split; [discriminate|split; discriminate]].
  assert (scalar_text (JInt z) = str_of_Z z) as -> by reflexivity.
  assert (forallb plain_char (str_of_Z z) = true /\ str_of_Z z <> []) as (H1 & H2).
  { destruct z as [|p|p]; [split; [reflexivity|discriminate]|apply str_of_N_plain|].
    cbn [str_of_Z forallb]. destruct (str_of_N_plain (Npos p)) as (-> & _). split; [reflexivity|discriminate]. }
  apply plain_word_one_line; auto. left. exact H.
Qed.
Lemma zero_entry E : writes_number_zero E -> entry_reads E $"number" (JInt 0) (PInt 0).
Proof.
  intros (HD & HL). exists $"number: 0". split; auto. split; [|split; [discriminate|split; [discriminate|discriminate]]].
  assert (forall P : ascii -> bool, forallb P $"number: 0" = true -> forall a c b, $"number: 0" = a ++ c :: b -> P c = true) as HA.
  { intros P HP a c b HE. rewrite forallb_forall in HP. apply HP. rewrite HE. apply in_or_app. right. left. reflexivity. }
  split; [|split; [|split; [|split; [|split]]]].
  - exists "n"%char, $"umber: 0". split; [reflexivity|]. split; [reflexivity|discriminate].
  - intros t c HE. change ($"number: 0") with ($"number: " ++ ["0"%char]) in HE. apply app_inj_tail in HE as (_ & <-). reflexivity.
  - intros (a & c & b & HE & _).
    assert (negb (ceq cHASH cHASH) = true) as X; [|vm_compute in X; discriminate].
    apply (HA (fun c => negb (ceq cHASH c)) eq_refl (a ++ [c]) cHASH b). rewrite HE, <- app_assoc. reflexivity.
  - intros (a & w & c & b & HE & _ & _ & HC).
    assert (negb (ceq "|"%char c || ceq ">"%char c) = true) as X.
    { apply (HA (fun c => negb (ceq "|"%char c || ceq ">"%char c)) eq_refl (a ++ $":" ++ w) c b). rewrite HE, <- !app_assoc. reflexivity. }
    destruct HC as [-> | ->]; vm_compute in X; discriminate.
  - split; [|split].
    + intros c HI. vm_compute in HI. repeat (destruct HI as [<-|HI]; [reflexivity|]). destruct HI.
    + intros (a & b & HE). assert (negb (ceq "{"%char "{"%char) = true) as X; [|vm_compute in X; discriminate].
      apply (HA (fun c => negb (ceq "{"%char c)) eq_refl a "{"%char ("%"%char :: b)). rewrite HE. reflexivity.
    + intros (a & b & HE). assert (negb (ceq "{"%char "{"%char) = true) as X; [|vm_compute in X; discriminate].
      apply (HA (fun c => negb (ceq "{"%char c)) eq_refl a "{"%char ("#"%char :: b)). rewrite HE. reflexivity.
  - left. exact HL.
Qed.

(** * Setting a key *)
Lemma path_snoc cs c : path_text (cs ++ [c]) = path_text cs ++ [cSL] ++ c.
Proof. induction cs as [|x cs IH]; cbn [path_text app]; [rewrite app_nil_r; reflexivity|]. rewrite IH, <- app_assoc. reflexivity. Qed.
Lemma lookup_walk root cs : cs <> [] -> Forall component cs -> lookup root (path_text cs) = walk root cs.
Proof. intros H HC. unfold lookup. rewrite (stack_of_path cs H HC). apply traverse_stack'. Qed.
Lemma value_walk E root root' cs d p : cs <> [] -> Forall component cs -> walk root' cs = walk root cs ->
  get_value E root' (path_text cs) d p = get_value E root (path_text cs) d p.
Proof.
  intros H HC HW. unfold get_value. rewrite (stack_of_path cs H HC). cbn [bind]. rewrite !traverse_stack', HW. reflexivity.
Qed.
Lemma set_reads E p q cs c v w r r' : asks p q -> sets q (path_text (cs ++ [c])) v -> cs <> [] -> Forall component (cs ++ [c]) ->
  isdigit c = false -> c <> $"-" -> settable E (r_root r) (path_text cs) c v w -> patch E p r = (Ok true, r') ->
  (kept_update (r_root r) (r_root r') cs \/ kept_update (r_root r) (r_root r') (cs ++ [c]))
  /\ get_value E (r_root r') (path_text (cs ++ [c])) None None = Ok (JP w).
Proof.
  intros Ha Hq Hne HC D ND HS HP. unfold settable in HS. rewrite <- path_snoc in HS.
  assert (Forall component cs) as HCs by (apply Forall_app in HC; tauto).
  destruct HS as [((n & HL & HK) & HS)|(HL & (n & HN & HM) & HE)].
  - destruct (existing_shape E p q _ cs c v w r r' n Ha Hq eq_refl HC D ND HL HK HS HP) as (H1 & H2). auto.
  - assert (lookup (r_root r) (path_text cs ++ [cSL]) = Some n) as HN'.
    { rewrite <- HN. unfold lookup. rewrite (stack_of_path_slash cs HCs), (stack_of_path cs Hne HCs). reflexivity. }
    destruct Hq as [->| ->].
    + destruct (missing_shape E p _ cs c v w r r' n Ha eq_refl HC D ND HL HN' HM HE HP) as (H1 & H2). auto.
    + exfalso. apply (patch_success E p _ r r' Ha eq_refl eq_refl) in HP as (root' & HP & _).
      destruct (stack_snoc cs c HC) as (HST & _). unfold lookup in HL. rewrite HST in HL.
      unfold perform in HP. cbn [request_path] in HP. rewrite HST in HP. unfold patch_replace in HP.
      rewrite (twi_name_eq _ _ _ D) in HP.
      destruct (traverse_pos (r_root r) (c :: rev cs ++ [ROOT_VALUE])) as [pos|] eqn:X; [|discriminate].
      unfold traverse in HL. rewrite X in HL. apply traverse_pos_some in X as (m & X). congruence.
Qed.
Lemma set_vars E p q s v r r' : asks p q -> sets q s v -> patch E p r = (Ok true, r') -> r_vars r' = r_vars r.
Proof.
  intros Ha Hq HP. assert (self_move q = false /\ is_test q = false) as (SM & IT) by (destruct Hq; subst; auto).
  apply (patch_success E p _ r r' Ha SM IT) in HP as (root' & _ & _ & (_ & _ & HV) & _). exact HV.
Qed.
Lemma set_walk E p q cs v r r' ds : asks p q -> sets q (path_text cs) v -> Forall component cs -> parts_from cs ds ->
  patch E p r = (Ok true, r') -> walk (r_root r') ds = walk (r_root r) ds.
Proof.
  intros Ha Hq HC HPF HP. rewrite <- (patch_walk E p q r ds Ha); [rewrite HP; reflexivity|].
  intros s HI. exists cs. assert (s = path_text cs) as -> by (destruct Hq; subst; cbn [edited_paths In] in HI; intuition congruence).
  auto.
Qed.
Ltac components := repeat (apply Forall_cons; [split; [discriminate|vm_compute; intuition discriminate]|]); try apply Forall_nil.

(** * What the later steps of bump-recipe leave alone *)
Lemma version_walk E t r r' d ds : d <> $"package" -> isdigit d = false -> version_step E t r r' ->
  walk (r_root r') (d :: ds) = walk (r_root r) (d :: ds).
Proof.
  intros HN HD H. unfold version_step in H.
  assert ((exists p q, asks p q /\ sets q $"/package/version" (JStr t) /\ patch E p r = (Ok true, r')) ->
    walk (r_root r') (d :: ds) = walk (r_root r) (d :: ds)) as HA.
  { intros (p & q & Ha & Hq & HP). apply (set_walk E p q [$"package"; $"version"] (JStr t) r r'); auto.
    - components.
    - exists [], $"package", d, [$"version"], ds. repeat split; auto. discriminate. }
  destruct (dget $"version" (r_vars r)) as [v|]; auto.
  destruct (match v with JNull => true | _ => false end); auto. subst. reflexivity.
Qed.
Lemma sha_components k : source_key k -> exists cs, k ++ $"/sha256" = path_text ($"source" :: cs) /\ cs <> [] /\ Forall component ($"source" :: cs).
Proof.
  intros [->|(i & ->)].
  - exists [$"sha256"]. split; [reflexivity|]. split; [discriminate|components].
  - exists [str_of_nat i; $"sha256"]. split; [|split; [discriminate|]].
    + cbn [path_text]. rewrite !app_nil_r, <- ?app_assoc. reflexivity.
    + constructor; [split; [discriminate|vm_compute; intuition discriminate]|]. constructor; [apply source_component|components].
Qed.
Lemma texts_walk E l d ds : d <> $"source" -> isdigit d = false -> forall r r', texts_set E l r r' ->
  (forall s t, In (s, t) l -> exists k, source_key k /\ s = k ++ $"/sha256") ->
  walk (r_root r') (d :: ds) = walk (r_root r) (d :: ds) /\ r_vars r' = r_vars r.
Proof.
  intros HN HD. induction 1 as [r|s t l r r1 r2 p q Ha Hq HP HT IH]; intros HK; auto.
  destruct IH as (I1 & I2). { intros s' t' HI. eapply HK. right. exact HI. }
  rewrite I1, I2. destruct (HK s t (or_introl eq_refl)) as (k & Hk & ->).
  destruct (sha_components k Hk) as (cs & HE & Hne & HC). rewrite HE in Hq. split.
  - eapply set_walk; eauto. exists [], $"source", d, cs, ds. repeat split; auto.
  - eapply set_vars; eauto.
Qed.
Lemma hash_walk E N r r' d ds : d <> $"source" -> isdigit d = false -> hash_step E N r r' ->
  walk (r_root r') (d :: ds) = walk (r_root r) (d :: ds).
Proof.
  intros HN HD (tbl & HF & [(-> & ->)|[(var & name & url & sha & _ & _ & _ & _ & _ & ->)|(l & HT & _ & HK & _)]]); auto.
  apply (texts_walk E l d ds HN HD r r' HT). intros s t HI. destruct (HK s t HI) as (k & name & url & HA & _ & ->).
  exists k. split; auto. destruct (from_recipe_keys _ _ _ _ HF) as (HKs & _). rewrite Forall_forall in HKs. apply HKs.
  apply (in_map fst) in HA. exact HA.
Qed.

(** * C58 *)
Lemma number_reads E inc r r1 : writes_number_zero E -> number_step E inc r r1 ->
  (forall old, key_at (r_root r) $"/build/number" -> get_value E (r_root r) $"/build/number" None None = Ok (JInt old) ->
     reads_integer E (if inc then old + 1 else 0)%Z -> get_value E (r_root r1) $"/build/number" None None = Ok (JInt (if inc then old + 1 else 0)))
  /\ (forall n, lookup (r_root r) $"/build/number" = None -> lookup (r_root r) $"/build" = Some n -> n_lmf n = false ->
     get_value E (r_root r1) $"/build/number" None None = Ok (JInt 0)).
Proof.
  intros HZ (_ & p & q & Ha & HP & Hq).
  change ($"/build/number") with (path_text ([$"build"] ++ [$"number"])) in *.
  assert (Forall component ([$"build"] ++ [$"number"])) as HC by (cbn [app]; components).
  split.
  - intros old (n & HL & HK) HG HI.
    assert (contains_value (r_root r) (path_text ([$"build"] ++ [$"number"])) = Ok true) as HCV.
    { unfold contains_value. unfold lookup in HL. destruct (str_to_stack_path _); [|discriminate]. cbn [bind]. rewrite HL. reflexivity. }
    rewrite HCV, andb_true_r in Hq. destruct inc.
    + destruct Hq as (z & Hz & ->).
      assert (z = old) as -> by (destruct Hz as [Hz|(b & Hz & _)]; congruence).
      eapply (set_reads E p _ [$"build"] $"number" (JInt (old + 1)) (PInt (old + 1)) r r1); eauto; try (right; reflexivity); try discriminate.
      left. split; [exists n; auto|apply integer_reads; auto].
    + subst q. eapply (set_reads E p _ [$"build"] $"number" (JInt 0) (PInt 0) r r1); eauto; try (left; reflexivity); try discriminate.
      left. split; [exists n; auto|apply integer_reads; auto].
  - intros n HL HN HM.
    assert (contains_value (r_root r) (path_text ([$"build"] ++ [$"number"])) = Ok false) as HCV.
    { unfold contains_value. unfold lookup in HL. destruct (stack_snoc [$"build"] $"number" HC) as (HST & _).
      rewrite HST in *. cbn [bind]. rewrite HL. reflexivity. }
    rewrite HCV, andb_false_r in Hq. subst q.
    eapply (set_reads E p _ [$"build"] $"number" (JInt 0) (PInt 0) r r1); eauto; try (left; reflexivity); try discriminate.
    right. split; [auto|]. split; [exists n; split; [exact HN|auto]|apply zero_entry; auto].
Qed.
Lemma bumped_number E N o r r' : bumped E N o r r' ->
  exists r1, number_step E (b_build_num o) r r1 /\
    get_value E (r_root r') $"/build/number" None None = get_value E (r_root r1) $"/build/number" None None.
Proof.
  unfold bumped. destruct (b_target o) as [t|]; [|eauto].
  intros (r1 & r2 & H1 & _ & H2 & H3). exists r1. split; auto.
  change ($"/build/number") with (path_text [$"build"; $"number"]).
  apply value_walk; [discriminate|components|].
  rewrite (hash_walk E N r2 r' $"build" [$"number"]), (version_walk E t r1 r2 $"build" [$"number"]); auto; discriminate.
Qed.
Lemma c58 E N o r r' : writes_number_zero E -> bumped E N o r r' ->
  (forall old, key_at (r_root r) $"/build/number" -> get_value E (r_root r) $"/build/number" None None = Ok (JInt old) ->
     reads_integer E (if b_build_num o then old + 1 else 0)%Z -> get_value E (r_root r') $"/build/number" None None = Ok (JInt (if b_build_num o then old + 1 else 0)))
  /\ (forall n, lookup (r_root r) $"/build/number" = None -> lookup (r_root r) $"/build" = Some n -> n_lmf n = false ->
     get_value E (r_root r') $"/build/number" None None = Ok (JInt 0)).
Proof.
  intros HZ HB. destruct (bumped_number E N o r r' HB) as (r1 & H1 & ->). apply number_reads; auto.
Qed.
