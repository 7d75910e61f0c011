(** Property C124: variables are replaced by their values. *)
From Verif Require Import SubstProofs3 Samples SubstSpec.

Theorem C124_replaced : forall E sv vars ps xs last vs, length xs = length ps ->
  Forall (fun p => ~ In "{"%char p) ps -> ~ In "{"%char last -> Forall2 (becomes E sv vars) xs vs ->
  finished sv (filled ps vs ++ last) (render_jinja_text E sv vars (filled ps xs ++ last)).
Proof. exact c124. Qed.
Print Assumptions C124_replaced.
Theorem C124_read : forall E sv vars s ps xs last vs u p, length xs = length ps -> xs <> [] ->
  Forall (fun p => ~ In "{"%char p) ps -> ~ In "{"%char last -> Forall2 (becomes E sv vars) xs vs -> 0 < rec_limit E ->
  yload E s = YOk (JStr (filled ps xs ++ last)) -> finished sv (filled ps vs ++ last) u -> yload E u = YOk (JP p) ->
  parse_yaml E s (Some (sv, vars)) = Ok (JP p).
Proof. exact c124_read. Qed.
Print Assumptions C124_read.

Definition some_vars : sdict json := [($"name", JStr $"Foo"); ($"version", JStr $"1.2"); ($"number", JInt 4)].
Definition shown (sv : schema) (s : str) : str := render_jinja_text mini_env sv some_vars s.
(** The forms of expression. *)
Example C124_example : becomes mini_env SV0 some_vars $"{{ name[0] | lower }}" $"f".
Proof.
  split.
  { exists $" ", $"name[0] | lower ", []. split; [reflexivity|]. split; [intros c [<-|[]]; reflexivity|]. split; [|intros c []].
    apply Forall_forall. intros c I. left. vm_compute in I |- *. tauto. }
  exists $"name[0] | lower", (Some $"f"). split.
  { exists $" ", $" ". split; [reflexivity|]. split; [intros c [<-|[]]; reflexivity|]. split; [intros c [<-|[]]; reflexivity|].
    split; [intros c t E; injection E as <- _; reflexivity|]. intros c t E. change $"name[0] | lower" with ($"name[0] | lowe" ++ $"r") in E.
    apply app_inj_tail in E as (_ & <-). reflexivity. }
  split; [|split; [reflexivity|vm_compute; intuition discriminate]].
  apply (ev_value mini_env some_vars $"name" ($"[" ++ $"0" ++ $"]") (fun s t => match nth_error s 0 with Some c => t = [c] | None => t = s end)
    ($" " ++ $"|" ++ $" " ++ $"lower") lowered (JStr $"Foo") $"foo" $"f").
  - split; [discriminate|]. repeat constructor.
  - apply (one_element $"0" 0); [split; [discriminate|repeat constructor]|]. apply (decimal_more [] 0 "0"%char 0); [constructor|reflexivity].
  - apply lower_filter; repeat constructor.
  - reflexivity.
  - assert (letter_changed capital small "F"%char "f"%char) as HF by (left; exists 5; split; reflexivity).
    assert (letter_changed capital small "o"%char "o"%char) as HO by (right; split; [vm_compute; intuition discriminate|reflexivity]).
    constructor; [exact HF|]. constructor; [exact HO|]. constructor; [exact HO|constructor].
  - reflexivity.
Qed.
Example C124_examples :
  shown SV0 $"{{ name }}-{{ version }}.tar" = $"Foo-1.2.tar" /\ shown SV1 $"a ${{ name | upper }}" = $"a FOO"
  /\ shown SV0 $"{{ number + 100 }}" = $"104" /\ shown SV0 $"{{ version + "".1"" }}" = $"""1.2.1"""
  /\ shown SV0 $"{{ name[9] }}" = $"Foo" /\ shown SV0 $"{{ compiler('c') }} {{ name }}" = $"${{ compiler('c') }} Foo".
Proof. repeat split; vm_compute; reflexivity. Qed.
(** Only two summands are added; a filter behind a sum has no effect. *)
Theorem C124_sums_refuted : exists vars : sdict json, dget $"name" vars = Some (JStr $"Foo")
  /\ render_jinja_text mini_env SV0 vars $"{{ 1 + 2 + 3 }}" = $"3"
  /\ render_jinja_text mini_env SV0 vars $"{{ name + ""x"" | upper }}" = $"""Foox""".
Proof. exists some_vars. repeat split; vm_compute; reflexivity. Qed.
Print Assumptions C124_sums_refuted.
(** The filters do not work from left to right. *)
Theorem C124_filter_order_refuted : exists vars : sdict json, dget $"name" vars = Some (JStr $"Foo")
  /\ render_jinja_text mini_env SV0 vars $"{{ name | upper | lower }}" = $"FOO".
Proof. exists some_vars. repeat split; vm_compute; reflexivity. Qed.
Print Assumptions C124_filter_order_refuted.
(** A value that holds an expression is replaced in turn when the expression stands to its right, and only then. *)
Theorem C124_values_kept_refuted : exists vars : sdict json, dget $"a" vars = Some (JStr $"{{ b }}") /\ dget $"b" vars = Some (JInt 1)
  /\ render_jinja_text mini_env SV0 vars $"{{ a }} {{ b }}" = $"1 1" /\ render_jinja_text mini_env SV0 vars $"{{ b }} {{ a }}" = $"1 {{ b }}".
Proof. exists [($"a", JStr $"{{ b }}"); ($"b", JInt 1)]. repeat split; vm_compute; reflexivity. Qed.
Print Assumptions C124_values_kept_refuted.
(** Texts are put together between double quotes as they are. *)
Theorem C124_quotes_refuted : exists (vars : sdict json) u, dget $"a" vars = Some (JStr $"6"" disk")
  /\ u = render_jinja_text mini_env SV0 vars $"{{ a + ""s"" }}" /\ u = $"""6"" disks""" /\ (forall j, yload mini_env u <> YOk j).
Proof.
  exists [($"a", JStr $"6"" disk")]. eexists. split; [reflexivity|]. split; [reflexivity|]. split; [vm_compute; reflexivity|].
  intros j H. vm_compute in H. discriminate H.
Qed.
Print Assumptions C124_quotes_refuted.
