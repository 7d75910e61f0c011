(** C61: recipes with exceptions in the report (proofs only). *)
From Verif Require Import Lemmas CommandsProofs CommandsProofs2 CommandsProofs3 CommandsProofs4.
From Verif Require Import CommandsSpec.

Definition broken (nr : str * conversion) : bool := is_exception_code (c_code (snd nr)).
Lemma broken_codes nr : broken nr = existsb (fun c => Z.eqb (exit_number c) (exit_number (c_code (snd nr)))) [PARSE_EXCEPTION; READ_EXCEPTION; RENDER_EXCEPTION].
Proof. unfold broken. cbn [existsb]. destruct (c_code (snd nr)); reflexivity. Qed.
Lemma fold_except l : forall t0, t_except_hist (fold_left add_result l t0) = fold_left count_issue (messages_of EXCEPTION (filter broken l)) (t_except_hist t0).
Proof.
  induction l as [|[name r] l IH]; intros t0; cbn [fold_left]; [reflexivity|].
  rewrite IH. unfold add_result. cbn [t_except_hist filter]. unfold broken at 2. cbn [snd].
  destruct (is_exception_code (c_code r)); [|reflexivity].
  unfold messages_of. cbn [flat_map snd]. rewrite fold_left_app. reflexivity.
Qed.
Lemma c61_exceptions files results : NoDup (map fst results) ->
  let t := bulk_report files results in
  let bad := with_codes [PARSE_EXCEPTION; READ_EXCEPTION; RENDER_EXCEPTION] results in
  t_files t = files /\ t_with_except t = map fst bad /\ counts (t_except_hist t) (messages_of EXCEPTION bad)
  /\ t_theoretical t = (Z.of_nat files - Z.of_nat (length (t_with_except t)) - Z.of_nat (length (t_with_errors t)))%Z.
Proof.
  intros HN. cbv zeta. unfold bulk_report.
  rewrite (results_table conversion conversion (fun x => x) results []) by exact HN. rewrite map_pair_id. cbn [app].
  cbv zeta. match goal with |- context [fold_left add_result results ?x] => set (t0 := x) end.
  destruct (fold_report results t0) as (H1 & _ & _ & _ & _ & _ & H7 & _). pose proof (fold_except results t0) as H11.
  cbn [t_files t_with_except t_with_errors t_theoretical t_except_hist].
  assert (with_codes [PARSE_EXCEPTION; READ_EXCEPTION; RENDER_EXCEPTION] results = filter broken results) as ->.
  { unfold with_codes. apply filter_ext. intros nr. symmetry. apply broken_codes. }
  rewrite H1, H11, H7. unfold t0. cbn [t_files t_with_except t_except_hist app].
  split; [reflexivity|]. split; [reflexivity|]. split; [apply (count_issue_counts _ [] []); intros x; reflexivity|]. lia.
Qed.
