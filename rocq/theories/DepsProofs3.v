(** Proofs: the names of packages (C50). *)
From Verif Require Import Lemmas DepsProofs PathProofs DepsSpec.

Lemma outputs_lookup root : is_multi_output root = match lookup root $"/outputs" with Some _ => true | None => false end.
Proof. reflexivity. Qed.
Lemma place_eq r path : package_path path ->
  (let v1_multi := is_multi_output (r_root r) && schema_eqb (r_schema r) SV1 in
   if str_eqb path $"/" then (if v1_multi then $"/recipe/name" else $"/package/name")
   else append_to_path path (if v1_multi then $"/package/name" else $"/name")) = name_place r path.
Proof.
  intros P. cbv zeta. unfold name_place. cbv zeta. rewrite outputs_lookup.
  assert (forall x, append_to_path path (cSL :: x) = below path (cSL :: x)) as HB by (intros x; apply package_path_below; exact P). unfold below in HB.
  destruct (list_eq_dec ascii_dec path $"/") as [->|N].
  - rewrite str_eqb_refl. destruct (r_schema r); destruct (lookup (r_root r) $"/outputs"); reflexivity.
  - apply str_eqb_neq in N. rewrite N. change $"/package/name" with (cSL :: $"package/name") . change $"/name" with (cSL :: $"name").
    destruct (r_schema r); destruct (lookup (r_root r) $"/outputs"); cbn [andb schema_eqb]; apply HB.
Qed.
Lemma assoc_prim_none {V} k (l : list (prim * V)) : assoc_prim k l = None <-> Forall (fun kv => prim_eqb (fst kv) k = false) l.
Proof.
  split.
  - intros H. apply assoc_none in H. rewrite Forall_forall in *. intros kv I. rewrite prim_eqb_sym. auto.
  - induction 1 as [|[k' v] l H1 H2 IH]; [reflexivity|]. cbn [assoc_prim fst] in *. rewrite prim_eqb_sym, H1. exact IH.
Qed.
Definition unlike (a b : prim * str) : Prop := prim_eqb (fst a) (fst b) = false.
Lemma pairs_app : forall (a b : list (prim * str)), ForallOrdPairs unlike (a ++ b) <-> ForallOrdPairs unlike a /\ ForallOrdPairs unlike b /\ Forall (fun x => Forall (unlike x) b) a.
Proof.
  induction a as [|x a IH]; intros b; cbn [app].
  - split; [intros H; repeat split; [constructor|exact H|constructor]|intros (_ & H & _); exact H].
  - split.
    + intros H. inversion H as [|? ? F P]; subst. apply IH in P as (P1 & P2 & P3). apply Forall_app in F as (F1 & F2). repeat split; try constructor; auto.
    + intros (P1 & P2 & P3). inversion P1; inversion P3; subst. constructor; [apply Forall_app; auto|]. apply IH. auto.
Qed.
Lemma c50_names E r tbl : get_package_names_to_path E r = Ok tbl <->
  exists v n, get_value E (r_root r) $"/outputs" (Some (JList [])) None = Ok v /\ json_len v = Ok n
    /\ map snd tbl = $"/" :: map (fun i => path_text [$"outputs"; str_of_nat i]) (seq 0 n)
    /\ Forall (fun kv => get_value E (r_root r) (name_place r (snd kv)) None (Some (r_schema r, r_vars r)) = Ok (JP (fst kv))) tbl
    /\ ForallOrdPairs (fun a b => prim_eqb (fst a) (fst b) = false) tbl.
Proof.
  unfold get_package_names_to_path. cbv zeta. unfold get_package_paths.
  destruct (get_value E (r_root r) $"/outputs" (Some (JList [])) None) as [v|]; [|split; [discriminate|intros (v & n & H & _); discriminate]]. cbn [bind].
  destruct (json_len v) as [n|] eqn:JL; [|split; [discriminate|intros (v' & n & [= <-] & H & _); congruence]]. cbn [bind].
  assert (forall i, $"/outputs/" ++ str_of_nat i = path_text [$"outputs"; str_of_nat i]) as HPT.
  { intros i. cbn [path_text]. rewrite app_nil_r. reflexivity. }
  rewrite (map_ext _ _ HPT). set (paths := $"/" :: _).
  assert (Forall package_path paths) as HP.
  { unfold paths. constructor; [left; reflexivity|]. rewrite Forall_forall. intros p I. apply in_map_iff in I as (i & <- & _). right. eauto. }
  match goal with |- fold_left ?f _ _ = _ <-> _ => set (F := f) end.
  assert (forall ps e, fold_left F ps (Err e) = Err e) as HErr.
  { induction ps as [|p ps IH]; intros e; [reflexivity|]. cbn [fold_left]. unfold F at 2. cbn [bind]. apply IH. }
  assert (forall ps, Forall package_path ps -> forall t0 t, ForallOrdPairs unlike t0 -> (fold_left F ps (Ok t0) = Ok t <->
     exists t1, t = t0 ++ t1 /\ map snd t1 = ps /\ Forall (fun kv => get_value E (r_root r) (name_place r (snd kv)) None (Some (r_schema r, r_vars r)) = Ok (JP (fst kv))) t1
       /\ ForallOrdPairs unlike t)) as HG.
  { induction ps as [|p ps IH]; intros HPs t0 t HD; cbn [fold_left].
    - split.
      + intros [= <-]. exists []. rewrite app_nil_r. repeat split; auto.
      + intros (t1 & -> & Hm & _). destruct t1; [rewrite app_nil_r; reflexivity|discriminate].
    - apply Forall_cons_iff in HPs as (HPp & HPs). specialize (IH HPs). unfold F at 2. cbn [bind]. pose proof (place_eq r p HPp) as PE. cbv zeta in PE. rewrite PE. clear PE.
      unfold sub_vars. destruct (get_value E (r_root r) (name_place r p) None (Some (r_schema r, r_vars r))) as [w|] eqn:GV.
      2: { cbn [bind]. rewrite HErr. split; [discriminate|]. intros (t1 & _ & Hm & Hf & _). destruct t1 as [|[k q] t1]; [discriminate|]. injection Hm as -> _. inversion Hf; subst. cbn [snd fst] in *. congruence. }
      cbn [bind]. destruct w as [k| |].
      2,3: rewrite HErr; split; [discriminate|]; intros (t1 & _ & Hm & Hf & _); destruct t1 as [|[k q] t1]; [discriminate|]; injection Hm as -> _; inversion Hf; subst; cbn [snd fst] in *; congruence.
      destruct (assoc_prim k t0) eqn:AP.
      + rewrite HErr. split; [discriminate|]. intros (t1 & -> & Hm & Hf & Hu). exfalso. destruct t1 as [|[k' q] t1]; [discriminate|]. injection Hm as -> _. inversion Hf as [|? ? HK]; subst. cbn [snd fst] in *.
        assert (k' = k) as -> by congruence. apply pairs_app in Hu as (_ & _ & Hu).
        assert (assoc_prim k t0 = None) as Z; [|congruence]. apply assoc_prim_none. rewrite Forall_forall in *. intros kv I. specialize (Hu kv I). inversion Hu; subst. assumption.
      + apply assoc_prim_none in AP.
        assert (ForallOrdPairs unlike (t0 ++ [(k, p)])) as HD'.
        { apply pairs_app. repeat split; [exact HD|repeat constructor|]. rewrite Forall_forall in *. intros kv I. constructor; [apply AP; exact I|constructor]. }
        rewrite (IH (t0 ++ [(k, p)]) t HD'). split.
        * intros (t1 & -> & Hm & Hf & Hu). exists ((k, p) :: t1). rewrite <- app_assoc in *. cbn [app] in *. split; [reflexivity|]. split; [cbn [map snd]; congruence|]. split; [constructor; auto|exact Hu].
        * intros (t1 & -> & Hm & Hf & Hu). destruct t1 as [|[k' q] t1]; [discriminate|]. injection Hm as -> Hm. inversion Hf as [|? ? HK]; subst. cbn [snd fst] in *.
          assert (k' = k) as -> by congruence. exists t1. rewrite <- app_assoc. cbn [app]. auto. }
  rewrite (HG paths HP [] tbl ltac:(constructor)). cbn [app]. split.
  - intros (t1 & -> & Hm & Hf & Hu). exists v, n. auto 6.
  - intros (v' & n' & [= <-] & Hn & Hm & Hf & Hu). assert (n' = n) as -> by congruence. exists tbl. auto.
Qed.
