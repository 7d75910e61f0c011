(** C124: a text with its expressions replaced (proofs only). *)
From Verif Require Export SubstProofs2.
From Verif Require Import Lemmas DepsProofs RenderProofs RegexProofs PreProofs2 ConvertProofs ConvertProofs6 ConvertProofs10 SubstSpec.

Lemma lang_sub sv u : lang (jinja_re sv) u <-> written sv u.
Proof.
  destruct sv; cbn [jinja_re written]; [apply lang_v0_sub|]. split.
  - intros H. change (lang (Seq (L "${{") (Seq WS (Seq JINJA_VAR (Seq WS (L "}}"))))) u) in H.
    destruct H as (a & b & -> & A & R). apply lang_L in A as ->. exists ($"{{" ++ b). split; [|reflexivity].
    apply lang_v0_sub. change (lang (Seq (L "{{") (Seq WS (Seq JINJA_VAR (Seq WS (L "}}"))))) ($"{{" ++ b)). exists $"{{", b. split; [reflexivity|]. split; [apply lang_L; reflexivity|exact R].
  - intros (e & HE & ->). apply lang_v0_sub in HE. change (lang (Seq (L "{{") (Seq WS (Seq JINJA_VAR (Seq WS (L "}}"))))) e) in HE.
    destruct HE as (a & b & -> & A & R). apply lang_L in A as ->.
    change (lang (Seq (L "${{") (Seq WS (Seq JINJA_VAR (Seq WS (L "}}"))))) ($"${{" ++ b)). exists $"${{", b. split; [reflexivity|]. split; [apply lang_L; reflexivity|exact R].
Qed.
Lemma sub_look sv : no_look (jinja_re sv) = true.
Proof. destruct sv; reflexivity. Qed.
Lemma expression_plain e : expression e -> ~ In "$"%char e.
Proof.
  intros (w & v & u & -> & Bw & Fv & Bu) I. rewrite Forall_forall in Fv.
  apply in_app_or in I as [I|I]; [vm_compute in I; intuition discriminate|]. apply in_app_or in I as [I|I]; [apply Bw in I; discriminate|].
  apply in_app_or in I as [I|I]; [apply Fv, expression_chars in I; vm_compute in I; discriminate|].
  apply in_app_or in I as [I|I]; [apply Bu in I; discriminate|]. vm_compute in I. intuition discriminate.
Qed.
Lemma written_same sv x y s t : written sv x -> written sv y -> x ++ s = y ++ t -> x = y.
Proof.
  destruct sv; cbn [written]; [apply expression_prefix|]. intros (e & HE & ->) (f & HF & ->) E. cbn [app] in E. injection E as E.
  f_equal. exact (expression_prefix e f s t HE HF E).
Qed.
Lemma written_head sv x : written sv x -> exists r, x = opening sv ++ r.
Proof.
  destruct sv; cbn [written].
  - intros H. apply expression_body in H as (b & -> & _). eexists. reflexivity.
  - intros (e & H & ->). apply expression_body in H as (b & -> & _). eexists. reflexivity.
Qed.
Definition next_ok (sv : schema) (t : str) : Prop := sv = SV1 -> forall r, t <> "{"%char :: r.
Lemma not_here sv b t u v : b <> [] -> braceless b -> next_ok sv t -> written sv u -> b ++ t = u ++ v -> False.
Proof.
  intros NB BB NO W E. apply written_head in W as (r & ->). destruct b as [|c b]; [contradiction|].
  destruct sv; cbn [opening] in E.
  - injection E as -> _. apply BB. left. reflexivity.
  - injection E as -> E. destruct b as [|d b]; [exact (NO eq_refl _ E)|]. injection E as -> _. apply BB. right. left. reflexivity.
Qed.
Lemma inside sv y a b t u v : written sv y -> y = a ++ b -> a <> [] -> b <> [] -> written sv u -> b ++ t = u ++ v -> False.
Proof.
  intros W -> NA NB U E. apply written_head in U as (r & ->). destruct a as [|c a]; [contradiction|]. destruct b as [|d b]; [contradiction|].
  destruct sv; cbn [opening written] in *.
  - apply expression_body in W as (w & EW & _ & NW). injection EW as -> EW. injection E as -> E.
    change (a ++ "{"%char :: b = "{"%char :: w ++ $"}}") in EW. destruct a as [|e a].
    + injection EW as ->. destruct w as [|x w]; [discriminate E|]. injection E as -> _. apply NW. left. reflexivity.
    + injection EW as _ EW. assert (In "{"%char (w ++ $"}}")) as I by (rewrite <- EW; apply in_or_app; right; left; reflexivity).
      apply in_app_or in I as [I|I]; [exact (NW I)|vm_compute in I; intuition discriminate].
  - destruct W as (e & HE & EE). injection EE as -> EE. injection E as -> _. apply (expression_plain e HE). rewrite <- EE. apply in_or_app. right. left. reflexivity.
Qed.

(** * Pieces *)
Notation seg := (bool * str)%type.
Definition text (l : list seg) : str := concat (map snd l).
Definition good (sv : schema) (g : seg) : Prop := if fst g then written sv (snd g) else braceless (snd g).
Definition exprs (l : list seg) : list str := map snd (filter fst l).
Lemma text_app a b : text (a ++ b) = text a ++ text b.
Proof. unfold text. rewrite map_app, concat_app. reflexivity. Qed.
Lemma exprs_app a b : exprs (a ++ b) = exprs a ++ exprs b.
Proof. unfold exprs. rewrite filter_app, map_app. reflexivity. Qed.
Lemma text_next sv l : Forall (good sv) l -> next_ok sv (text l).
Proof.
  intros F -> r. induction F as [|[b y] l G F IH]; [discriminate|]. unfold text. cbn [map snd concat]. fold (text l).
  destruct b; cbn [good fst snd] in G.
  - destruct G as (e & _ & ->). discriminate.
  - destruct y as [|c y]; [exact IH|]. intros E. injection E as -> _. apply G. left. reflexivity.
Qed.
Lemma scan_segs sv whole : forall l pre prev, Forall (good sv) l -> whole = pre ++ text l ->
  map (group0 whole) (scan (jinja_re sv) prev (length pre) 0 (text l)) = exprs l.
Proof.
  induction l as [|[b y] l IH]; intros pre prev F EW; [reflexivity|]. inversion F as [|? ? G F']; subst.
  change (text ((b, y) :: l)) with (y ++ text l).
  assert (forall prev, map (group0 (pre ++ y ++ text l)) (scan (jinja_re sv) prev (length pre + length y) 0 (text l)) = exprs l) as R.
  { intros prev0. rewrite <- app_length. apply IH; [exact F'|apply app_assoc]. }
  destruct b; cbn [good fst snd] in G.
  - destruct (match_only (jinja_re sv) y (text l) prev (length pre) (sub_look sv) (proj2 (lang_sub sv y) G)) as (x & M & S1 & S2).
    { intros u t HL E. apply lang_sub in HL. symmetry. exact (written_same sv y u _ _ G HL E). }
    destruct (ConvertProofs10.scan_hit (jinja_re sv) prev (length pre) y (text l) x) as (prev' & ->); [|exact M|exact S1|exact S2|].
    { apply written_head in G as (r & ->). destruct sv; discriminate. }
    change (exprs ((true, y) :: l)) with (y :: exprs l). cbn [map]. rewrite R. f_equal. unfold group0. rewrite S1, S2. apply slice_mid.
  - destruct (ConvertProofs10.scan_plain (jinja_re sv) (text l) y prev (length pre)) as (prev' & ->); [|exact (R prev')].
    intros a c -> NC prev0 p0. destruct (match_at _ _ _ _) eqn:M; [|reflexivity]. exfalso. apply match_lang_g in M as (u & v & E & HL). apply lang_sub in HL.
    apply (not_here sv c (text l) u v NC); [intros I; apply G; apply in_or_app; right; exact I|apply text_next; exact F'|exact HL|exact E].
Qed.
Lemma findall_segs sv l : Forall (good sv) l -> findall (jinja_re sv) (text l) = exprs l.
Proof. intros F. apply (scan_segs sv (text l) l [] None F eq_refl). Qed.

(** * One replacement *)
Definition sub1 (x v : str) (g : seg) : seg := if fst g && str_eqb (snd g) x then (false, v) else g.
Lemma replace_segs sv x v : written sv x -> forall l, Forall (good sv) l -> replace_all x v (text l) = text (map (sub1 x v) l).
Proof.
  intros W. unfold replace_all. induction l as [|[b y] l IH]; intros F; [reflexivity|]. inversion F as [|? ? G F']; subst.
  cbn [map]. change (text ((b, y) :: l)) with (y ++ text l).
  change (text (sub1 x v (b, y) :: map (sub1 x v) l)) with (snd (sub1 x v (b, y)) ++ text (map (sub1 x v) l)).
  unfold sub1 at 1. cbn [fst snd]. destruct b; cbn [good fst snd andb] in *.
  - destruct (str_eqb y x) eqn:E.
    + apply str_eqb_eq in E as ->. rewrite replace_hit; [cbn [snd]; rewrite IH by exact F'; reflexivity|].
      apply written_head in W as (r & ->). destruct sv; discriminate.
    + cbn [snd]. rewrite replace_plain; [rewrite IH by exact F'; reflexivity|]. intros a c w EY NC H. destruct a as [|d a].
      * cbn [app] in EY. subst c. assert (y = x) as -> by exact (written_same sv y x _ _ G W H). rewrite str_eqb_refl in E. discriminate.
      * exact (inside sv y (d :: a) c (text l) x w G EY ltac:(discriminate) NC W H).
  - rewrite replace_plain; [rewrite IH by exact F'; reflexivity|]. intros a c w EY NC H.
    apply (not_here sv c (text l) x w NC); [intros I; apply G; rewrite EY; apply in_or_app; right; exact I|apply text_next; exact F'|exact W|exact H].
Qed.

(** * All replacements *)
Lemma sv_cases (sv : schema) : sv = SV0 \/ sv = SV1.
Proof. destruct sv; auto. Qed.
Section All.
Context (E : env) (sv : schema) (vars : vtbl).
Let J (x : str) : option str := jval E vars (jkey_of sv x).
Definition fall (g : seg) : seg := if fst g then match J (snd g) with Some v => (false, v) | None => g end else g.
Definition fin (D : list str) (g : seg) : seg := if existsb (str_eqb (snd g)) D then fall g else g.
Definition tame (g : seg) : Prop := fst g = true -> forall v, J (snd g) = Some v -> braceless v.
Lemma fall_good g : good sv g -> tame g -> good sv (fall g).
Proof.
  intros G T. destruct g as [[] y]; unfold fall; cbn [fst snd]; [|exact G]. destruct (J y) as [v|] eqn:Jy; [exact (T eq_refl v Jy)|exact G].
Qed.
Lemma fin_good D g : good sv g -> tame g -> good sv (fin D g).
Proof. intros G T. unfold fin. destruct (existsb _ D); [apply fall_good; assumption|exact G]. Qed.
Lemma fin_step D x v g : J x = Some v -> sub1 x v (fin D g) = fin (D ++ [x]) g.
Proof.
  intros Jx. destruct g as [b y]. unfold fin. cbn [snd]. rewrite existsb_app. cbn [existsb]. rewrite orb_false_r.
  destruct (existsb (str_eqb y) D) eqn:M; cbn [orb].
  - unfold fall. cbn [fst snd]. destruct b; [|reflexivity]. destruct (J y) as [w|] eqn:Jy; [reflexivity|]. unfold sub1. cbn [fst snd andb].
    destruct (str_eqb y x) eqn:Q; [|reflexivity]. apply str_eqb_eq in Q as ->. congruence.
  - unfold sub1. cbn [fst snd]. destruct (str_eqb y x) eqn:Q.
    + apply str_eqb_eq in Q as ->. unfold fall. cbn [fst snd]. destruct b; cbn [andb]; [rewrite Jx|]; reflexivity.
    + rewrite andb_false_r. reflexivity.
Qed.
Lemma fin_stay D x g : J x = None -> fin D g = fin (D ++ [x]) g.
Proof.
  intros Jx. destruct g as [b y]. unfold fin. cbn [snd]. rewrite existsb_app. cbn [existsb]. rewrite orb_false_r.
  destruct (existsb (str_eqb y) D); cbn [orb]; [reflexivity|]. destruct (str_eqb y x) eqn:Q; [|reflexivity].
  apply str_eqb_eq in Q as ->. unfold fall. cbn [fst snd]. rewrite Jx. destruct b; reflexivity.
Qed.
Lemma fin_done A : map (fin (exprs A)) A = map fall A.
Proof.
  apply map_ext_in. intros [b y] I. unfold fin. cbn [snd]. destruct (existsb (str_eqb y) (exprs A)) eqn:M; [reflexivity|].
  unfold fall. cbn [fst]. destruct b; [|reflexivity]. exfalso. assert (existsb (str_eqb y) (exprs A) = true); [|congruence].
  apply existsb_exists. exists y. split; [|apply str_eqb_refl]. unfold exprs. apply in_map_iff. exists (true, y). split; [reflexivity|].
  apply filter_In. auto.
Qed.
Definition esc (t : str) : bool := match sv with SV0 => starts_with $"{{" t | SV1 => false end.
Definition front (b : bool) : str := if b then $"$" else [].
Lemma esc_braceless t p : (t = [] \/ esc t = true \/ exists c r, t = c :: r /\ c <> "{"%char) -> braceless p -> esc (t ++ p) = esc t.
Proof.
  intros H B. unfold esc in *. destruct sv; [|reflexivity]. destruct H as [->|[H|(c & r & -> & N)]].
  - cbn [app]. destruct p as [|c p]; [reflexivity|]. change (starts_with $"{{" (c :: p)) with (ceq "{"%char c && starts_with $"{" p).
    destruct (ceq "{"%char c) eqn:Q; [|reflexivity]. apply ceq_eq in Q as <-. exfalso. apply B. left. reflexivity.
  - rewrite H. apply starts_with_spec in H as (r & ->). reflexivity.
  - cbn [app]. change (starts_with $"{{" (c :: r)) with (ceq "{"%char c && starts_with $"{" r).
    change (starts_with $"{{" (c :: r ++ p)) with (ceq "{"%char c && starts_with $"{" (r ++ p)).
    destruct (ceq "{"%char c) eqn:Q; [|reflexivity]. apply ceq_eq in Q as <-. congruence.
Qed.
Lemma shape l : sv = SV0 -> Forall (good sv) l -> text l = [] \/ esc (text l) = true \/ exists c r, text l = c :: r /\ c <> "{"%char.
Proof.
  intros HS F. induction F as [|[b y] l G F IH]; [left; reflexivity|].
  change (text ((b, y) :: l)) with (y ++ text l). destruct b; cbn [good fst snd] in G.
  - right. left. apply written_head in G as (r & ->). rewrite HS. cbn [opening]. unfold esc. rewrite HS. reflexivity.
  - destruct y as [|c y]; [exact IH|]. right. right. exists c, (y ++ text l). split; [reflexivity|]. intros ->. apply G. left. reflexivity.
Qed.
Lemma shape' l : Forall (good sv) l -> sv = SV1 \/ (text l = [] \/ esc (text l) = true \/ exists c r, text l = c :: r /\ c <> "{"%char).
Proof. intros F. destruct sv eqn:S; [right; rewrite <- S in *; apply shape; assumption|left; reflexivity]. Qed.
Lemma esc_more l p : Forall (good sv) l -> braceless p -> esc (text l ++ p) = esc (text l).
Proof.
  intros F B. destruct (shape' l F) as [HS|H]; [unfold esc; rewrite HS; reflexivity|]. apply esc_braceless; assumption.
Qed.
Lemma fold_segs : forall B A, Forall (good sv) (A ++ B) -> Forall tame (A ++ B) ->
  fold_left (render_jinja_one E sv vars) (exprs B) (front (esc (text (map fall A))) ++ text (map (fin (exprs A)) (A ++ B)))
  = front (esc (text (map fall (A ++ B)))) ++ text (map fall (A ++ B)).
Proof.
  induction B as [|[b x] B IH]; intros A FG FT.
  - rewrite !app_nil_r. cbn [exprs filter map fold_left]. rewrite fin_done. reflexivity.
  - assert (A ++ (b, x) :: B = (A ++ [(b, x)]) ++ B) as EA by (rewrite <- app_assoc; reflexivity).
    assert (Forall (good sv) A /\ Forall tame A /\ good sv (b, x) /\ tame (b, x)) as (GA & TA & Gx & Tx).
    { apply Forall_app in FG as (? & FG). apply Forall_app in FT as (? & FT). inversion FG; inversion FT; subst. auto. }
    assert (Forall (good sv) (map fall A)) as GF.
    { apply Forall_forall. intros g I. apply in_map_iff in I as (g0 & <- & I). rewrite Forall_forall in GA, TA. apply fall_good; auto. }
    assert (Forall (good sv) (map (fin (exprs A)) (A ++ (b, x) :: B))) as GS.
    { apply Forall_forall. intros g I. apply in_map_iff in I as (g0 & <- & I). rewrite Forall_forall in FG, FT. apply fin_good; auto. }
    specialize (IH (A ++ [(b, x)])). rewrite <- EA in IH. specialize (IH FG FT). rewrite exprs_app, map_app, text_app in IH.
    destruct b.
    + change (exprs ((true, x) :: B)) with (x :: exprs B). cbn [fold_left]. rewrite one_is. fold (J x).
      cbn [good fst snd] in Gx. change (exprs [(true, x)]) with [x] in IH. change (map fall [(true, x)]) with [fall (true, x)] in IH.
      destruct (J x) as [v|] eqn:Jx.
      * assert (fall (true, x) = (false, v)) as EF by (unfold fall; cbn [fst snd]; rewrite Jx; reflexivity). rewrite EF in IH.
        change (text [(false, v)]) with (v ++ []) in IH. rewrite app_nil_r in IH. rewrite esc_more in IH; [|exact GF|exact (Tx eq_refl v Jx)].
        etransitivity; [|exact IH]. apply (f_equal (fold_left (render_jinja_one E sv vars) (exprs B))).
        match goal with |- replace_all x v (?F ++ text ?M) = _ => set (l := M) in *; set (f := F) end.
        change (f ++ text l) with (text ((false, f) :: l)). rewrite (replace_segs sv x v Gx).
        -- cbn [map]. change (sub1 x v (false, f)) with (false, f). change (text ((false, f) :: map (sub1 x v) l)) with (f ++ text (map (sub1 x v) l)).
           f_equal. f_equal. unfold l. rewrite map_map. apply map_ext. intros g. apply fin_step. exact Jx.
        -- constructor; [|exact GS]. cbn [good fst snd]. unfold f. destruct (esc _); cbn [front]; intros I; [vm_compute in I; intuition discriminate|destruct I].
      * assert (fall (true, x) = (true, x)) as EF by (unfold fall; cbn [fst snd]; rewrite Jx; reflexivity). rewrite EF in IH.
        change (text [(true, x)]) with (x ++ []) in IH. rewrite app_nil_r in IH.
        rewrite <- IH. f_equal. rewrite <- (map_ext _ _ (fun g => fin_stay (exprs A) x g Jx)).
        set (T := text (map (fin (exprs A)) (A ++ (true, x) :: B))).
        assert (exists r, T = text (map fall A) ++ x ++ r) as (r & ET).
        { unfold T. rewrite map_app, text_app, fin_done. cbn [map]. exists (text (map (fin (exprs A)) B)). f_equal.
          assert (fin (exprs A) (true, x) = (true, x)) as -> by (unfold fin; rewrite EF; destruct (existsb _ _); reflexivity). reflexivity. }
        assert (sv = SV0 \/ sv = SV1) as [HS|HS] by apply sv_cases.
        2: { match goal with |- (match sv with SV0 => ?a | SV1 => ?b end) = _ => assert (match sv with SV0 => a | SV1 => b end = b) as -> by (rewrite HS; reflexivity) end.
             unfold esc; rewrite HS; reflexivity. }
        match goal with |- (match sv with SV0 => ?a | SV1 => ?b end) = _ => assert (match sv with SV0 => a | SV1 => b end = a) as -> by (rewrite HS; reflexivity) end.
        assert (forall s, str_eqb (firstn 2 s) $"{{" = esc s) as EB.
        { intros s. unfold esc. rewrite HS. destruct s as [|c [|d s]]; [reflexivity|..].
          - change (firstn 2 [c]) with [c]. change (starts_with $"{{" [c]) with (ceq "{"%char c && false). rewrite andb_false_r. destruct (str_eqb [c] $"{{") eqn:Q; [apply str_eqb_eq in Q; discriminate|reflexivity].
          - change (firstn 2 (c :: d :: s)) with [c; d]. change (starts_with $"{{" (c :: d :: s)) with (ceq "{"%char c && (ceq "{"%char d && true)).
            rewrite andb_true_r. destruct (str_eqb [c; d] $"{{") eqn:Q.
            + apply str_eqb_eq in Q. injection Q as -> ->. reflexivity.
            + destruct (ceq "{"%char c) eqn:Q1; [|reflexivity]. destruct (ceq "{"%char d) eqn:Q2; [|reflexivity].
              apply ceq_eq in Q1, Q2. subst. vm_compute in Q. discriminate. }
        rewrite EB. apply written_head in Gx as (r0 & Ex). rewrite HS in Ex. cbn [opening] in Ex.
        destruct (shape _ HS GF) as [Z|[Z|(c & r1 & Z & NZ)]].
        -- rewrite Z in *. assert (esc [] = false) as -> by (unfold esc; rewrite HS; reflexivity). cbn [front app] in *.
           assert (esc T = true) as -> by (rewrite ET, Ex; unfold esc; rewrite HS; reflexivity).
           assert (esc x = true) as -> by (rewrite Ex; unfold esc; rewrite HS; reflexivity). reflexivity.
        -- rewrite Z. assert (esc (text (map fall A) ++ x) = true) as ->.
           { unfold esc in *. rewrite HS in *. apply starts_with_spec in Z as (z & ->). reflexivity. }
           cbn [front]. assert (esc ($"$" ++ T) = false) as -> by (unfold esc; rewrite HS; reflexivity). reflexivity.
        -- assert (forall s, esc (c :: s) = false) as NS.
           { intros s. unfold esc. rewrite HS. change (starts_with $"{{" (c :: s)) with (ceq "{"%char c && starts_with $"{" s).
             destruct (ceq "{"%char c) eqn:Q; [apply ceq_eq in Q; congruence|reflexivity]. }
           rewrite Z in *. cbn [app] in *. rewrite !NS. cbn [front app]. rewrite ET, NS. reflexivity.
    + change (exprs ((false, x) :: B)) with (exprs B). change (exprs [(false, x)]) with (@nil str) in IH. rewrite app_nil_r in IH.
      change (map fall [(false, x)]) with [(false, x)] in IH. change (text [(false, x)]) with (x ++ []) in IH. rewrite app_nil_r in IH.
      rewrite esc_more in IH; [exact IH|exact GF|exact Gx].
Qed.
Lemma render_segs l : Forall (good sv) l -> Forall tame l ->
  render_jinja_text E sv vars (text l) = front (esc (text (map fall l))) ++ text (map fall l).
Proof.
  intros G T. unfold render_jinja_text. rewrite findall_segs by exact G. pose proof (fold_segs l [] G T) as H. cbn [app map exprs filter] in H.
  assert (map (fin []) l = l) as EL by (rewrite <- (map_id l) at 2; apply map_ext; intros g; reflexivity). rewrite EL in H.
  assert (front (esc (text [])) = []) as Z by (unfold esc; destruct (sv_cases sv) as [HS|HS]; rewrite HS; reflexivity). rewrite Z in H. exact H.
Qed.
End All.

Fixpoint segs (ps xs : list str) : list seg :=
  match ps, xs with p :: ps', x :: xs' => (false, p) :: (true, x) :: segs ps' xs' | _, _ => [] end.
Lemma segs_text ps : forall xs, text (segs ps xs) = filled ps xs.
Proof.
  induction ps as [|p ps IH]; intros [|x xs]; try reflexivity. cbn [segs filled].
  change (text ((false, p) :: (true, x) :: segs ps xs)) with (p ++ x ++ text (segs ps xs)). rewrite IH. reflexivity.
Qed.
Lemma becomes_is E sv vars x v : becomes E sv vars x v -> snd (fall E sv vars (true, x)) = v /\ good sv (true, x) /\ tame E sv vars (true, x).
Proof.
  intros (W & key & o & K & EV & H). unfold fall, tame. cbn [fst snd good]. rewrite (key_found sv x key K), (evaluates_is E vars key o EV).
  destruct o as [t|].
  - destruct H as (-> & NB). split; [reflexivity|]. split; [exact W|]. intros _ v' [= <-]. exact NB.
  - split; [symmetry; exact H|]. split; [exact W|]. intros _ v' Z. discriminate Z.
Qed.
Lemma segs_become E sv vars : forall ps xs vs, length xs = length ps -> Forall braceless ps -> Forall2 (becomes E sv vars) xs vs ->
  Forall (good sv) (segs ps xs) /\ Forall (tame E sv vars) (segs ps xs) /\ text (map (fall E sv vars) (segs ps xs)) = filled ps vs.
Proof.
  induction ps as [|p ps IH]; intros [|x xs] vs HL FP F2; try discriminate HL.
  - inversion F2. split; [constructor|]. split; [constructor|reflexivity].
  - inversion F2 as [|? v ? vs' Hx F2']; subst. inversion FP as [|? ? BP FP']; subst. injection HL as HL.
    destruct (IH xs vs' HL FP' F2') as (G & T & X). destruct (becomes_is E sv vars x v Hx) as (V & Gx & Tx). cbn [segs filled map].
    split; [constructor; [exact BP|constructor; assumption]|]. split; [constructor; [intros Z; discriminate Z|constructor; assumption]|].
    change (fall E sv vars (false, p)) with (false, p).
    change (text ((false, p) :: fall E sv vars (true, x) :: map (fall E sv vars) (segs ps xs)))
      with (p ++ snd (fall E sv vars (true, x)) ++ text (map (fall E sv vars) (segs ps xs))). rewrite V, X. reflexivity.
Qed.
Lemma finished_is sv t : finished sv t (front (esc sv t) ++ t).
Proof.
  unfold finished. destruct (esc sv t) eqn:Z; unfold esc in Z; destruct sv; try discriminate Z; cbn [front app].
  - left. split; [reflexivity|]. apply starts_with_spec in Z as (r & Z). split; [exists r; exact Z|reflexivity].
  - right. split; [|reflexivity]. intros (_ & r & ->). assert (starts_with $"{{" ($"{{" ++ r) = true) by (apply starts_with_spec; exists r; reflexivity). congruence.
  - right. split; [intros (Z' & _); discriminate Z'|reflexivity].
Qed.
Lemma c124 E sv vars ps xs last vs : length xs = length ps -> Forall braceless ps -> braceless last -> Forall2 (becomes E sv vars) xs vs ->
  finished sv (filled ps vs ++ last) (render_jinja_text E sv vars (filled ps xs ++ last)).
Proof.
  intros HL FP BL F2. destruct (segs_become E sv vars ps xs vs HL FP F2) as (G & T & X).
  set (l := segs ps xs ++ [(false, last)]).
  assert (text l = filled ps xs ++ last) as EL by (unfold l; rewrite text_app, segs_text; change (text [(false, last)]) with (last ++ []); rewrite app_nil_r; reflexivity).
  assert (text (map (fall E sv vars) l) = filled ps vs ++ last) as EF.
  { unfold l. rewrite map_app, text_app, X. change (text (map (fall E sv vars) [(false, last)])) with (last ++ []). rewrite app_nil_r. reflexivity. }
  rewrite <- EL, (render_segs E sv vars l), EF; [apply finished_is|apply Forall_app; split; [exact G|constructor; [exact BL|constructor]]|].
  apply Forall_app. split; [exact T|]. constructor; [intros Z; discriminate Z|constructor].
Qed.
(** A line whose value is such a text. *)
Lemma c124_read E sv vars s ps xs last vs u p : length xs = length ps -> xs <> [] -> Forall braceless ps -> braceless last -> Forall2 (becomes E sv vars) xs vs ->
  0 < rec_limit E -> yload E s = YOk (JStr (filled ps xs ++ last)) -> finished sv (filled ps vs ++ last) u -> yload E u = YOk (JP p) ->
  parse_yaml E s (Some (sv, vars)) = Ok (JP p).
Proof.
  intros HL NE FP BL F2 RL Y FU YU. pose proof (c124 E sv vars ps xs last vs HL FP BL F2) as H.
  assert (render_jinja_text E sv vars (filled ps xs ++ last) = u) as ER.
  { unfold finished in *. destruct FU as [(A1 & A2 & ->)|(A1 & ->)]; destruct H as [(B1 & B2 & ->)|(B1 & ->)]; try reflexivity; exfalso; auto. }
  assert (exempt (filled ps xs ++ last)) as EX.
  { destruct xs as [|x xs]; [congruence|]. destruct ps as [|q ps]; [discriminate|]. inversion F2 as [|? v ? vs' Hx _]; subst. destruct Hx as (W & _).
    left. assert (exists w v u pre, x = pre ++ $"{{" ++ w ++ v ++ u ++ $"}}" /\ blank w /\ Forall expression_char v /\ blank u) as (w & v0 & u0 & pre & Ex & Bw & Fv & Bu).
    { destruct sv; cbn [written] in W; [destruct W as (w & v0 & u0 & -> & Z); exists w, v0, u0, []; auto|].
      destruct W as (e & (w & v0 & u0 & -> & Z) & ->). exists w, v0, u0, $"$". auto. }
    exists w, v0, u0. split; [|auto]. cbn [filled]. exists (q ++ pre), (filled ps xs ++ last). rewrite Ex, <- !app_assoc. reflexivity. }
  unfold parse_yaml. rewrite Y. cbn [ybind sub_jinja]. destruct (rec_limit E) as [|n]; [lia|].
  cbn [recursive_sub_vars].
  rewrite c42_verbatim by (right; left; exact EX). unfold render_jinja_vars. rewrite ER, YU. reflexivity.
Qed.
