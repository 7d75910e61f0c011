(** The object form of a document (proofs only). *)
From Verif Require Export RenderProofs2.

(** * One step at a time *)
Definition elems (E : env) (p : jparser) : list node -> json -> res json :=
  fix go2 es e := match es with [] => Ok e | x :: es' => let! e' := render_object_tree E p x e in go2 es' e' end.
Definition ostep (E : env) (p : jparser) (v : nval) (ch : node) (data : json) : res json :=
  if is_comment ch then Ok data
  else
    let! value := obj_value E p ch in
    let! key := obj_key v in
    (if is_empty_key ch then
       let! cur := obj_item data key in
       let! k2 := obj_key (n_value ch) in
       let! cur' := obj_put cur k2 JNull in
       obj_put data key cur'
     else if is_collection ch then
       let! elem := elems E p (n_children ch) (JDict []) in
       let! cur := obj_item data key in
       let! n := json_len cur in
       let! data1 := (if n =? 0 then obj_put data key (JList []) else Ok data) in
       obj_append data1 key elem
     else if n_lmf ch then
       let! data1 := obj_ensure_list data key in
       obj_append data1 key value
     else if is_leaf ch then obj_put data key value
     else
       let! data1 := obj_setdefault data key (JDict []) in
       let! sub := obj_item data1 key in
       let! sub' := render_object_tree E p ch sub in
       obj_put data1 key sub').
Fixpoint oloop (E : env) (p : jparser) (v : nval) (cs : list node) (data : json) : res json :=
  match cs with [] => Ok data | ch :: cs' => let! d := ostep E p v ch data in oloop E p v cs' d end.
Lemma rot_eq E p n data : render_object_tree E p n data = if is_comment n then Ok data else oloop E p (n_value n) (n_children n) data.
Proof.
  destruct n as [v cm chs l ml k]. cbn [render_object_tree n_value n_children]. destruct (is_comment (Nd v cm chs l ml k)); [reflexivity|].
  revert data. induction chs as [|ch chs IH]; intros data; [reflexivity|]. cbn [oloop]. unfold ostep at 1.
  destruct (is_comment ch); [cbn [bind]; apply IH|].
  destruct (obj_value E p ch) as [value|]; [|reflexivity]. cbn [bind]. destruct (obj_key v) as [key|]; [|reflexivity]. cbn [bind].
  destruct (is_empty_key ch).
  { match goal with |- bind ?x _ = bind ?y _ => change x with y; destruct y; [apply IH|reflexivity] end. }
  destruct ch as [v2 cm2 es l2 ml2 k2]. destruct (is_collection (Nd v2 cm2 es l2 ml2 k2)).
  { match goal with |- bind ?x _ = bind ?y _ => change x with y; destruct y; [apply IH|reflexivity] end. }
  match goal with |- bind ?x _ = bind ?y _ => change x with y; destruct y; [apply IH|reflexivity] end.
Qed.
Lemma oloop_app E p v a b data : oloop E p v (a ++ b) data = let! d := oloop E p v a data in oloop E p v b d.
Proof. revert data. induction a as [|x a IH]; intros data; [reflexivity|]. cbn [app oloop]. destruct (ostep E p v x data); [apply IH|reflexivity]. Qed.

(** * Dictionaries with a fresh last key *)
Definition fresh (k : prim) (d : list (prim * json)) : Prop := forall kv, In kv d -> prim_eqb k (fst kv) = false.
Lemma fresh_cons k k' v' d : fresh k ((k', v') :: d) -> prim_eqb k k' = false /\ fresh k d.
Proof. intros F. split; [apply (F (k', v')); left; reflexivity|intros kv I; apply F; right; exact I]. Qed.
Lemma assoc_fresh k d : fresh k d -> assoc_prim k d = None.
Proof. induction d as [|[k' v'] d IH]; intros F; [reflexivity|]. apply fresh_cons in F as [N F]. cbn [assoc_prim]. rewrite N. apply IH. exact F. Qed.
Lemma assoc_last k v d : fresh k d -> assoc_prim k (d ++ [(k, v)]) = Some v.
Proof.
  induction d as [|[k' v'] d IH]; intros F; cbn [app assoc_prim]; [rewrite prim_eqb_refl; reflexivity|].
  apply fresh_cons in F as [N F]. rewrite N. apply IH. exact F.
Qed.
Lemma pset_fresh k v d : fresh k d -> pset k v d = d ++ [(k, v)].
Proof. induction d as [|[k' v'] d IH]; intros F; [reflexivity|]. apply fresh_cons in F as [N F]. cbn [pset app]. rewrite N, IH by exact F. reflexivity. Qed.
Lemma pset_last k v w d : fresh k d -> pset k w (d ++ [(k, v)]) = d ++ [(k, w)].
Proof.
  induction d as [|[k' v'] d IH]; intros F; cbn [app pset]; [rewrite prim_eqb_refl; reflexivity|].
  apply fresh_cons in F as [N F]. rewrite N, IH by exact F. reflexivity.
Qed.
Section Cells.
Context (k : prim) (d : list (prim * json)) (F : fresh k d).
Definition with_cell (c : option json) : json := JDict (d ++ match c with Some v => [(k, v)] | None => [] end).
Lemma cell_item c : obj_item (with_cell c) k = match c with Some v => Ok v | None => Err EKey end.
Proof. unfold with_cell, obj_item. destruct c as [v|]; [rewrite assoc_last by exact F; reflexivity|]. rewrite app_nil_r, assoc_fresh by exact F. reflexivity. Qed.
Lemma cell_put c w : obj_put (with_cell c) k w = Ok (with_cell (Some w)).
Proof. unfold with_cell, obj_put. destruct c as [v|]; [rewrite pset_last by exact F; reflexivity|]. rewrite app_nil_r, pset_fresh by exact F. reflexivity. Qed.
Lemma cell_setdefault c w : obj_setdefault (with_cell c) k w = Ok (with_cell (Some (match c with Some v => v | None => w end))).
Proof. unfold with_cell, obj_setdefault. destruct c as [v|]; [rewrite assoc_last by exact F; reflexivity|]. rewrite app_nil_r, assoc_fresh, pset_fresh by exact F. reflexivity. Qed.
Lemma cell_ensure c : obj_ensure_list (with_cell c) k = Ok (with_cell (Some (match c with Some v => v | None => JList [] end))).
Proof. unfold with_cell, obj_ensure_list. destruct c as [v|]; [rewrite assoc_last by exact F; reflexivity|]. rewrite app_nil_r, assoc_fresh, pset_fresh by exact F. reflexivity. Qed.
Lemma cell_append l v : obj_append (with_cell (Some (JList l))) k v = Ok (with_cell (Some (JList (l ++ [v])))).
Proof. unfold obj_append. rewrite cell_item. cbn [bind]. apply cell_put. Qed.
End Cells.

(** * The lines of a document *)
Definition readable (E : env) (p : jparser) (f : leaf -> json) (x : item) : Prop := Forall (shows E p f) (leaves x).
Lemma value_scalar E p f v c lm : shows E p f (LScalar v) -> obj_value E p (Nd (VJ v) c [] lm MNone false) = Ok (f (LScalar v)).
Proof.
  intros H. unfold obj_value. cbn [n_ml is_multi n_value]. unfold shows in H.
  destruct v as [[| | | |s]| |]; destruct p as [[? ?]|]; rewrite H; reflexivity.
Qed.
Lemma value_block E p f m ls : is_multi m = true -> shows E p f (LBlock m ls) ->
  obj_value E p (Nd (VJ (JList (map (fun l => JStr l) ls))) [] [] false m false) = Ok (f (LBlock m ls)).
Proof.
  intros M H. unfold obj_value. cbn [n_ml n_value]. rewrite M. unfold normalize_multiline. cbn [nval_lines].
  assert (as_lines (map (fun l => JStr l) ls) = Some ls) as -> by (clear; induction ls as [|l ls IH]; [reflexivity|]; cbn [map as_lines]; rewrite IH; reflexivity).
  cbn [bind]. unfold shows in H.
  assert (mlv_str m ++ [cNL] ++ TAB ++ join (cNL :: TAB) ls = mlv_str m ++ NLs ++ $"  " ++ join (NLs ++ $"  ") ls) as E1 by reflexivity.
  destruct p as [[sv vars]|]; rewrite E1, H; reflexivity.
Qed.
Lemma value_name E p f k c chs : shows E p f (LName k) -> exists j, obj_value E p (key_node k c chs) = Ok j.
Proof.
  intros H. unfold obj_value, key_node. cbn [n_ml is_multi n_value]. unfold shows in H.
  destruct k; destruct p as [[? ?]|]; try (eexists; reflexivity). destruct H as (j & H). rewrite H. eexists. reflexivity.
Qed.
Lemma comment_step E p v c data : negb (is_nil c) = true -> ostep E p v (tree_of (IComment c)) data = Ok data.
Proof. intros N. unfold ostep. cbn [tree_of]. unfold is_comment. cbn [n_value is_sent n_comment n_children is_nil andb]. rewrite N. reflexivity. Qed.
Lemma not_comment_key k c chs : is_comment (key_node k c chs) = false.
Proof. reflexivity. Qed.

Definition section_value (f : leaf -> json) (cs : list item) : json :=
  if existsb is_element cs then JList (flat_map (element f) cs) else JDict (flat_map (entry f) cs).
Definition good_entry (E : env) (p : jparser) (f : leaf -> json) (x : item) : Prop :=
  forall k d, entry_key x = Some k -> an_empty_key x = false -> fresh k d ->
    render_object_tree E p (tree_of x) (JDict d) = Ok (JDict (d ++ entry f x)).
Definition good_element (E : env) (p : jparser) (f : leaf -> json) (x : item) : Prop :=
  is_element x = true -> a_scalar_element x = false -> exists e, elems E p (n_children (tree_of x)) (JDict []) = Ok e /\ element f x = [e].
Lemma entry_single f x k : entry_key x = Some k -> exists v, entry f x = [(k, v)].
Proof. destruct x; cbn [entry_key entry]; intros H; try discriminate; injection H as ->; eauto. Qed.
Lemma line_key_entry x k : entry_key x = Some k -> line_key x = [(k, JNull)].
Proof. intros H. unfold line_key. rewrite H. reflexivity. Qed.
Definition nulls (e : list (prim * json)) : list (prim * json) := map (fun kv => (fst kv, JNull)) e.
Lemma distinct_mid a k v b : distinct_keys (nulls a ++ (k, v) :: b) = true -> fresh k a.
Proof.
  induction a as [|[k' v'] a IH]; intros H; [intros kv []|]. cbn [nulls map fst app distinct_keys] in H. apply andb_prop in H as [H1 H2].
  apply negb_true_iff in H1. intros kv [<-|I]; [|apply (IH H2); exact I]. cbn [fst].
  destruct (prim_eqb k k') eqn:E; [|reflexivity]. exfalso.
  assert (existsb (fun kv => prim_eqb (fst kv) k') (nulls a ++ (k, v) :: b) = true); [|unfold nulls in *; congruence].
  apply existsb_exists. exists (k, v). split; [apply in_or_app; right; left; reflexivity|exact E].
Qed.

(** A line inside a section. *)
Lemma entry_step E p f x k d e0 c : entry_key x <> None -> regular x = true -> readable E p f x -> good_entry E p f x -> fresh k d ->
  distinct_keys (nulls e0 ++ line_key x) = true ->
  (an_empty_key x = true -> c = Some (JDict e0)) -> (c = Some (JDict e0) \/ (c = None /\ e0 = [])) ->
  ostep E p (VJ (JP k)) (tree_of x) (with_cell k d c) = Ok (with_cell k d (Some (JDict (e0 ++ entry f x)))).
Proof.
  intros EK RX SX GX F DK HE HC. destruct (entry_key x) as [k2|] eqn:K2; [clear EK|congruence].
  rewrite (line_key_entry x k2 K2) in DK. apply distinct_mid in DK as FK.
  assert (exists cm chs, tree_of x = key_node k2 cm chs /\ (chs = [] <-> an_empty_key x = true)) as (cm & chs & ET & EC).
  { destruct x as [c0|k0 c0|k0 v c0|k0 m ls c0|k0 c0 cs|v c0|k0 v c0 rest|k0 c0 cs rest]; cbn [entry_key] in K2; try discriminate; injection K2 as ->; cbn [tree_of an_empty_key].
    1-3: do 2 eexists; split; [reflexivity|split; [intros; try reflexivity; discriminate|intros; try reflexivity; discriminate]].
    do 2 eexists. split; [reflexivity|]. split; [|discriminate]. intros M. destruct cs; [|discriminate].
    cbn [regular] in RX. discriminate. }
  assert (shows E p f (LName k2)) as SN.
  { unfold readable in SX. destruct x; cbn [entry_key] in K2; try discriminate; injection K2 as ->; cbn [leaves] in SX; inversion SX; assumption. }
  unfold ostep. rewrite ET, not_comment_key. destruct (value_name E p f k2 cm chs SN) as (j & ->). cbn [bind obj_key].
  destruct (an_empty_key x) eqn:EE.
  - assert (chs = []) as -> by tauto. rewrite (HE eq_refl). unfold is_empty_key, is_leaf, key_node. cbn [n_keyf n_children is_nil andb is_comment is_sent n_value negb].
    rewrite cell_item by exact F. cbn [bind obj_key obj_put]. rewrite pset_fresh by exact FK. cbn [bind].
    rewrite cell_put by exact F. destruct x; try discriminate. cbn [entry_key] in K2. injection K2 as ->. reflexivity.
  - destruct chs as [|ch chs]; [assert (false = true) by tauto; discriminate|].
    unfold is_empty_key, is_leaf, is_collection. cbn [key_node n_keyf n_children is_nil andb n_value is_sent n_lmf].
    rewrite cell_setdefault by exact F. cbn [bind]. rewrite cell_item by exact F. cbn [bind].
    assert (match c with Some v => v | None => JDict [] end = JDict e0) as -> by (destruct HC as [->|[-> ->]]; reflexivity).
    change (Nd (VJ (JP k2)) cm (ch :: chs) false MNone true) with (key_node k2 cm (ch :: chs)). rewrite <- ET.
    rewrite (GX k2 e0 K2 EE FK). cbn [bind]. apply cell_put. exact F.
Qed.
Lemma element_step E p f x k d c l0 : is_element x = true -> regular x = true -> readable E p f x -> good_element E p f x -> fresh k d ->
  (c = Some (JList l0) /\ l0 <> [] \/ c = Some (JDict []) /\ a_scalar_element x = false /\ l0 = [] \/ c = None /\ a_scalar_element x = true /\ l0 = []) ->
  ostep E p (VJ (JP k)) (tree_of x) (with_cell k d c) = Ok (with_cell k d (Some (JList (l0 ++ element f x)))).
Proof.
  intros IE RX SX GX F HC. destruct (a_scalar_element x) eqn:AS.
  - destruct x as [| | | | |v cm| |]; try discriminate. unfold ostep. cbn [tree_of]. unfold is_comment at 1. cbn [n_value is_sent andb].
    unfold readable in SX. cbn [leaves] in SX. inversion SX as [|? ? SV _]; subst. rewrite (value_scalar E p f v cm true SV). cbn [bind obj_key].
    unfold is_empty_key, is_collection. cbn [n_keyf andb n_value is_sent n_lmf]. rewrite cell_ensure by exact F. cbn [bind].
    assert (match c with Some v => v | None => JList [] end = JList l0) as ->.
    { destruct HC as [[-> _]|[(_ & X & _)|(-> & _ & ->)]]; [reflexivity|discriminate|reflexivity]. }
    rewrite cell_append by exact F. reflexivity.
  - destruct (GX IE AS) as (e & He & Ee). rewrite Ee.
    assert (exists cm ch chs, tree_of x = Nd VSent cm (ch :: chs) true MNone false) as (cm & ch & chs & ET).
    { destruct x; try discriminate; cbn [tree_of]; eauto. }
    unfold ostep. rewrite ET in *. unfold is_comment at 1, is_empty_key, is_collection. cbn [n_value is_sent n_comment n_children is_nil andb n_keyf n_lmf negb].
    rewrite andb_false_r. unfold obj_value. cbn [n_ml is_multi n_value bind obj_key]. cbn [n_children] in He. rewrite He. cbn [bind].
    rewrite cell_item by exact F. destruct HC as [[-> NE]|[(-> & _ & ->)|(_ & X & _)]]; [| |discriminate]; cbn [bind json_len].
    + destruct l0 as [|a l0]; [congruence|]. cbn [length Nat.eqb bind]. apply cell_append. exact F.
    + cbn [length Nat.eqb]. rewrite cell_put by exact F. cbn [bind]. apply cell_append. exact F.
Qed.
Definition Pgood E p f x := regular x = true -> readable E p f x -> good_entry E p f x /\ good_element E p f x.
Lemma nulls_app a b : nulls (a ++ b) = nulls a ++ nulls b.
Proof. apply map_app. Qed.
Lemma nulls_entry f x : nulls (entry f x) = line_key x.
Proof. destruct x; reflexivity. Qed.
Lemma distinct_prefix a b : distinct_keys (a ++ b) = true -> distinct_keys a = true.
Proof.
  induction a as [|[k v] a IH]; intros H; [reflexivity|]. cbn [app distinct_keys] in *. apply andb_prop in H as [H1 H2]. rewrite (IH H2), andb_true_r.
  apply negb_true_iff in H1. apply negb_true_iff. rewrite existsb_app in H1. apply orb_false_iff in H1. tauto.
Qed.
Lemma map_loop E p f k d cs : fresh k d -> Forall (Pgood E p f) cs -> forallb regular cs = true -> Forall (shows E p f) (flat_map leaves cs) ->
  forallb (fun x => a_comment x || is_entry x) cs = true -> forall e0,
  distinct_keys (nulls e0 ++ flat_map line_key cs) = true ->
  oloop E p (VJ (JP k)) (map tree_of cs) (with_cell k d (Some (JDict e0))) = Ok (with_cell k d (Some (JDict (e0 ++ flat_map (entry f) cs)))).
Proof.
  intros F G. induction G as [|x cs Gx G IH]; intros R S M e0 DK; cbn [map oloop flat_map]; [rewrite app_nil_r; reflexivity|].
  cbn [forallb] in R, M. apply andb_prop in R as [Rx R]. apply andb_prop in M as [Mx M]. cbn [flat_map] in S, DK. apply Forall_app in S as [Sx S].
  apply orb_prop in Mx as [Mx|Mx].
  - destruct x; try discriminate. rewrite comment_step by exact Rx. cbn [bind entry app]. apply IH; assumption.
  - assert (entry_key x <> None) as EK by (unfold is_entry in Mx; destruct (entry_key x); [discriminate|discriminate]).
    rewrite app_assoc in DK.
    rewrite (entry_step E p f x k d e0 (Some (JDict e0)) EK Rx Sx (proj1 (Gx Rx Sx)) F (distinct_prefix _ _ DK)); [|auto|auto].
    cbn [bind]. rewrite app_assoc. apply IH; [assumption..|]. rewrite nulls_app, nulls_entry. exact DK.
Qed.
Lemma list_loop E p f k d cs : fresh k d -> Forall (Pgood E p f) cs -> forallb regular cs = true -> Forall (shows E p f) (flat_map leaves cs) ->
  forallb (fun x => a_comment x || is_element x) cs = true -> forall l0, l0 <> [] ->
  oloop E p (VJ (JP k)) (map tree_of cs) (with_cell k d (Some (JList l0))) = Ok (with_cell k d (Some (JList (l0 ++ flat_map (element f) cs)))).
Proof.
  intros F G. induction G as [|x cs Gx G IH]; intros R S M l0 NE; cbn [map oloop flat_map]; [rewrite app_nil_r; reflexivity|].
  cbn [forallb] in R, M. apply andb_prop in R as [Rx R]. apply andb_prop in M as [Mx M]. cbn [flat_map] in S. apply Forall_app in S as [Sx S].
  apply orb_prop in Mx as [Mx|Mx].
  - destruct x; try discriminate. rewrite comment_step by exact Rx. cbn [bind element app]. apply IH; assumption.
  - rewrite (element_step E p f x k d (Some (JList l0)) l0 Mx Rx Sx (proj2 (Gx Rx Sx)) F); [|left; auto].
    cbn [bind]. rewrite app_assoc. apply IH; try assumption. intros X. apply app_eq_nil in X as [X _]. contradiction.
Qed.
Lemma forallb_filter {A} (f g : A -> bool) l : forallb g (filter (fun x => negb (f x)) l) = true -> forallb (fun x => f x || g x) l = true.
Proof.
  induction l as [|x l IH]; intros H; [reflexivity|]. cbn [filter forallb] in *. destruct (f x); cbn [negb orb] in *; [apply IH; exact H|].
  cbn [forallb] in H. apply andb_prop in H as [-> H]. apply IH. exact H.
Qed.
Lemma comments_first {A} (f : A -> bool) l x others : filter (fun x => negb (f x)) l = x :: others ->
  exists a b, l = a ++ x :: b /\ forallb f a = true /\ filter (fun x => negb (f x)) b = others /\ f x = false.
Proof.
  induction l as [|y l IH]; intros H; [discriminate|]. cbn [filter] in H. destruct (f y) eqn:Fy; cbn [negb] in H.
  - destruct (IH H) as (a & b & -> & Fa & Fb & Fx). exists (y :: a), b. cbn [app forallb]. rewrite Fy. auto.
  - injection H as -> <-. exists [], l. auto.
Qed.
Lemma comments_loop E p v a data : forallb a_comment a = true -> forallb regular a = true -> oloop E p v (map tree_of a) data = Ok data.
Proof.
  induction a as [|x a IH]; intros C R; [reflexivity|]. cbn [forallb] in C, R. apply andb_prop in C as [Cx C]. apply andb_prop in R as [Rx R].
  cbn [map oloop]. destruct x; try discriminate. rewrite comment_step by exact Rx. cbn [bind]. apply IH; assumption.
Qed.
Lemma comments_nothing f a : forallb a_comment a = true -> flat_map (entry f) a = [] /\ flat_map (element f) a = [] /\ flat_map line_key a = [] /\ existsb is_element a = false.
Proof.
  induction a as [|x a IH]; intros C; [auto|]. cbn [forallb] in C. apply andb_prop in C as [Cx C]. destruct x; try discriminate.
  cbn [flat_map existsb entry element is_element orb app]. apply IH. exact C.
Qed.
Lemma entries_not_elements cs : forallb (fun x => a_comment x || is_entry x) cs = true -> existsb is_element cs = false.
Proof.
  induction cs as [|x cs IH]; intros H; [reflexivity|]. cbn [forallb existsb] in *. apply andb_prop in H as [Hx H]. rewrite IH by exact H.
  destruct x; cbn in *; try discriminate; reflexivity.
Qed.
Lemma section_loop E p f top k d cs : fresh k d -> Forall (Pgood E p f) cs -> forallb regular cs = true -> Forall (shows E p f) (flat_map leaves cs) ->
  section_ok top cs = true ->
  oloop E p (VJ (JP k)) (map tree_of cs) (with_cell k d (if top then Some (JDict []) else None)) = Ok (with_cell k d (Some (section_value f cs))).
Proof.
  intros F G R S OK. unfold section_ok in OK. destruct (filter (fun x => negb (a_comment x)) cs) as [|first others] eqn:FL; [discriminate|].
  apply comments_first in FL as (a & b & -> & Ca & Fb & Cf).
  destruct (comments_nothing f a Ca) as (N1 & N2 & N3 & N4).
  rewrite map_app, oloop_app. apply Forall_app in G as [Ga G]. inversion G as [|? ? Gf Gb]; subst.
  rewrite forallb_app in R. apply andb_prop in R as [Ra R]. cbn [forallb] in R. apply andb_prop in R as [Rf Rb].
  rewrite flat_map_app in S. apply Forall_app in S as [_ S]. cbn [flat_map] in S. apply Forall_app in S as [Sf Sb].
  rewrite (comments_loop E p _ a _ Ca Ra). cbn [bind map oloop]. unfold section_value. rewrite existsb_app, N4. cbn [orb existsb].
  rewrite !flat_map_app, N1, N2. cbn [app flat_map].
  destruct (is_element first) eqn:IE; cbn [orb].
  - apply andb_prop in OK as [OK1 OK2].
    rewrite (element_step E p f first k d _ [] IE Rf Sf (proj2 (Gf Rf Sf)) F).
    + cbn [bind app]. apply list_loop; try assumption; [apply forallb_filter; exact OK1|].
      destruct first; try discriminate; cbn [element]; discriminate.
    + destruct top, (a_scalar_element first); try discriminate; auto.
  - apply andb_prop in OK as [OK OK4]. apply andb_prop in OK as [OK OK3]. apply andb_prop in OK as [OK1 OK2].
    apply forallb_filter in OK2. rewrite (entries_not_elements b OK2).
    assert (entry_key first <> None) as EK by (unfold is_entry in OK1; destruct (entry_key first); discriminate).
    unfold keys_differ in OK3. rewrite flat_map_app, N3 in OK3. cbn [app flat_map] in OK3.
    rewrite (entry_step E p f first k d [] _ EK Rf Sf (proj1 (Gf Rf Sf)) F).
    + cbn [bind app]. apply map_loop; try assumption. rewrite nulls_entry. exact OK3.
    + cbn [nulls map app]. exact (distinct_prefix _ _ OK3).
    + intros X. rewrite X in OK4. destruct top; [reflexivity|discriminate].
    + destruct top; auto.
Qed.
Lemma section_entry E p f k d c cs : fresh k d -> Forall (Pgood E p f) cs -> forallb regular cs = true -> Forall (shows E p f) (flat_map leaves cs) ->
  section_ok false cs = true -> render_object_tree E p (key_node k c (map tree_of cs)) (JDict d) = Ok (JDict (d ++ [(k, section_value f cs)])).
Proof.
  intros F G R S OK. rewrite rot_eq, not_comment_key. cbn [key_node n_value n_children].
  pose proof (section_loop E p f false k d cs F G R S OK) as H. cbv iota in H. unfold with_cell in H at 1. rewrite app_nil_r in H. exact H.
Qed.
Lemma scalar_entry E p f k v c d : fresh k d -> shows E p f (LScalar v) -> 
  render_object_tree E p (key_node k c [value_node v c]) (JDict d) = Ok (JDict (d ++ [(k, f (LScalar v))])).
Proof.
  intros F S. rewrite rot_eq, not_comment_key. cbn [key_node n_value n_children oloop]. unfold ostep, value_node.
  unfold is_comment at 1. cbn [n_value is_sent andb]. rewrite (value_scalar E p f v c false S). cbn [bind obj_key].
  unfold is_empty_key, is_collection, is_leaf. cbn [n_keyf andb n_value is_sent n_lmf n_children is_nil]. unfold is_comment. cbn [n_value is_sent andb negb].
  cbn [obj_put]. rewrite pset_fresh by exact F. reflexivity.
Qed.
Lemma rest_elems E p f rest : Forall (Pgood E p f) rest -> forallb regular rest = true -> Forall (shows E p f) (flat_map leaves rest) ->
  forallb (fun x => a_comment x || (is_entry x && negb (an_empty_key x))) rest = true -> forall e0,
  distinct_keys (nulls e0 ++ flat_map line_key rest) = true ->
  elems E p (map tree_of rest) (JDict e0) = Ok (JDict (e0 ++ flat_map (entry f) rest)).
Proof.
  intros G. induction G as [|x rest Gx G IH]; intros R S M e0 DK; [cbn [map elems flat_map]; rewrite app_nil_r; reflexivity|].
  cbn [forallb] in R, M. apply andb_prop in R as [Rx R]. apply andb_prop in M as [Mx M]. cbn [flat_map] in S, DK. apply Forall_app in S as [Sx S].
  cbn [map flat_map]. change (elems E p (tree_of x :: map tree_of rest) (JDict e0)) with (let! e' := render_object_tree E p (tree_of x) (JDict e0) in elems E p (map tree_of rest) e').
  apply orb_prop in Mx as [Mx|Mx].
  - destruct x as [c| | | | | | |]; try discriminate. rewrite rot_eq. cbn [regular] in Rx.
    assert (is_comment (tree_of (IComment c)) = true) as -> by (unfold is_comment; cbn [tree_of n_value is_sent n_comment n_children is_nil andb]; rewrite Rx; reflexivity).
    cbn [bind entry app]. apply IH; assumption.
  - apply andb_prop in Mx as [M1 M2]. apply negb_true_iff in M2. unfold is_entry in M1. destruct (entry_key x) as [k|] eqn:K; [|discriminate].
    pose proof DK as DK'. rewrite (line_key_entry x k K) in DK'. rewrite app_assoc in DK. apply distinct_mid in DK'.
    rewrite (proj1 (Gx Rx Sx) k e0 K M2 DK'). cbn [bind]. rewrite app_assoc. apply IH; [assumption..|]. rewrite nulls_app, nulls_entry. exact DK.
Qed.
Lemma all_good E p f x : Pgood E p f x.
Proof.
  induction x as [c|k c|k v c|k m ls c|k c cs IH|v c|k v c rest IH|k c cs rest IHc IHr] using item_ind'; intros R S; unfold readable in S; cbn [regular] in R; cbn [leaves] in S;
    (split; [intros k0 d EK NE F; cbn [entry_key] in EK; try discriminate; try (injection EK as <-)|intros IE NS; try discriminate]).
  - inversion S as [|? ? _ S2]; subst. inversion S2; subst. apply scalar_entry; assumption.
  - inversion S as [|? ? _ S2]; subst. inversion S2 as [|? ? SB _]; subst. cbn [tree_of entry].
    rewrite rot_eq, not_comment_key. cbn [key_node n_value n_children oloop]. unfold ostep.
    unfold is_comment at 1. cbn [n_value is_sent andb]. rewrite (value_block E p f m ls R SB). cbn [bind obj_key].
    unfold is_empty_key, is_collection, is_leaf. cbn [n_keyf andb n_value is_sent n_lmf n_children is_nil]. unfold is_comment. cbn [n_value is_sent andb negb].
    cbn [obj_put]. rewrite pset_fresh by exact F. reflexivity.
  - apply andb_prop in R as [R1 R2]. inversion S as [|? ? _ S2]; subst. cbn [tree_of entry]. apply section_entry; assumption.
  - apply andb_prop in R as [R1 R2]. unfold mapping_ok in R1. apply andb_prop in R1 as [R1 R3].
    inversion S as [|? ? _ S2]; subst. inversion S2 as [|? ? SV S3]; subst.
    eexists. split; [|reflexivity]. cbn [tree_of n_children].
    change (elems E p (key_node k c [value_node v c] :: map tree_of rest) (JDict [])) with
      (let! e' := render_object_tree E p (key_node k c [value_node v c]) (JDict []) in elems E p (map tree_of rest) e').
    rewrite (scalar_entry E p f k v c []); [|intros kv []|exact SV]. cbn [bind app].
    rewrite (rest_elems E p f rest IH R2 S3 R1 [(k, f (LScalar v))] R3). reflexivity.
  - apply andb_prop in R as [R R4]. apply andb_prop in R as [R R3]. apply andb_prop in R as [R1 R2]. unfold mapping_ok in R3. apply andb_prop in R3 as [R3 R5].
    inversion S as [|? ? _ S2]; subst. apply Forall_app in S2 as [S2 S3].
    eexists. split; [|reflexivity]. cbn [tree_of n_children].
    change (elems E p (key_node k c (map tree_of cs) :: map tree_of rest) (JDict [])) with
      (let! e' := render_object_tree E p (key_node k c (map tree_of cs)) (JDict []) in elems E p (map tree_of rest) e').
    rewrite (section_entry E p f k [] c cs); [|intros kv []|assumption..]. cbn [bind app].
    rewrite (rest_elems E p f rest IHr R4 S3 R3 [(k, section_value f cs)] R5). reflexivity.
Qed.
Lemma top_step E p f x k d : entry_key x = Some k -> regular_top x = true -> readable E p f x -> fresh k d ->
  render_object_tree E p (tree_of x) (with_cell k d (Some (JDict []))) = Ok (JDict (d ++ entry f x)).
Proof.
  intros EK Rx Sx F. unfold readable in Sx.
  destruct x as [c|k0 c|k0 v c|k0 m ls c|k0 c cs|v c|k0 v c rest|k0 c cs rest]; cbn [regular_top] in Rx; try discriminate; cbn [entry_key] in EK; try discriminate;
    injection EK as ->; cbn [tree_of entry leaves] in *; inversion Sx as [|? ? _ S2]; subst; rewrite rot_eq, not_comment_key; cbn [key_node n_value n_children].
  - inversion S2 as [|? ? SV _]; subst. cbn [oloop]. unfold ostep, value_node.
    unfold is_comment at 1. cbn [n_value is_sent andb]. rewrite (value_scalar E p f v c false SV). cbn [bind obj_key].
    unfold is_empty_key, is_collection, is_leaf. cbn [n_keyf andb n_value is_sent n_lmf n_children is_nil]. unfold is_comment. cbn [n_value is_sent andb negb].
    rewrite cell_put by exact F. reflexivity.
  - inversion S2 as [|? ? SV _]; subst. cbn [oloop]. unfold ostep.
    unfold is_comment at 1. cbn [n_value is_sent andb]. rewrite (value_block E p f m ls Rx SV). cbn [bind obj_key].
    unfold is_empty_key, is_collection, is_leaf. cbn [n_keyf andb n_value is_sent n_lmf n_children is_nil]. unfold is_comment. cbn [n_value is_sent andb negb].
    rewrite cell_put by exact F. reflexivity.
  - apply andb_prop in Rx as [R1 R2].
    assert (Forall (Pgood E p f) cs) as G by (apply Forall_forall; intros x _; apply all_good).
    exact (section_loop E p f true k d cs F G R2 S2 R1).
Qed.
Lemma c46 E p f xs : regular_document xs = true -> Forall (shows E p f) (flat_map leaves xs) ->
  render_to_object E p (document xs) = Ok (object f xs).
Proof.
  intros R S. unfold regular_document in R. apply andb_prop in R as [R DK]. unfold render_to_object, document, root_node, object. cbn [n_children].
  match goal with |- fold_left ?g _ _ = _ => set (step := g) end.
  assert (forall e0, distinct_keys (nulls e0 ++ flat_map line_key xs) = true ->
    fold_left step (map tree_of xs) (Ok (JDict e0)) = Ok (JDict (e0 ++ flat_map (entry f) xs))) as H;
    [|exact (H [] DK)].
  clear DK. induction xs as [|x xs IH]; intros e0 DK; cbn [map fold_left flat_map]; [rewrite app_nil_r; reflexivity|].
  cbn [forallb] in R. apply andb_prop in R as [Rx R]. cbn [flat_map] in S, DK. apply Forall_app in S as [Sx S].
  specialize (IH R S).
  assert (step (Ok (JDict e0)) (tree_of x) = Ok (JDict (e0 ++ entry f x))) as ->.
  - unfold step. cbn [bind]. destruct (entry_key x) as [k|] eqn:EK.
    + rewrite (line_key_entry x k EK) in DK. apply distinct_mid in DK.
      assert (exists c chs, tree_of x = key_node k c chs) as (c & chs & ET) by (destruct x; try discriminate EK; injection EK as ->; cbn [tree_of]; eauto).
      pose proof (top_step E p f x k e0 EK Rx Sx DK) as TS. rewrite ET in *. rewrite not_comment_key. cbn [key_node n_value obj_key bind].
      pose proof (cell_setdefault k e0 DK None (JDict [])) as CS. unfold with_cell at 1 in CS. rewrite app_nil_r in CS. rewrite CS. cbn [bind]. exact TS.
    + destruct x as [c| | | | | | |]; try discriminate EK; try discriminate Rx. cbn [regular_top regular] in Rx.
      assert (is_comment (tree_of (IComment c)) = true) as -> by (unfold is_comment; cbn [tree_of n_value is_sent n_comment n_children is_nil andb]; rewrite Rx; reflexivity).
      cbn [entry]. rewrite app_nil_r. reflexivity.
  - rewrite app_assoc. apply IH. rewrite nulls_app, nulls_entry, <- app_assoc. exact DK.
Qed.
