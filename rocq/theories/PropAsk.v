(** Property C28, continued: queries of selector paths among edits. *)
From Verif Require Import AskProofs Samples AskSpec.

(** ** C28 *)
(** The second of two equal queries in a row answers with one empty path, whatever the document. *)
Theorem C28_second_query_is_empty : forall sel r,
  fst (get_selector_paths sel (snd (get_selector_paths sel r))) = match fst (get_selector_paths sel r) with [] => [] | _ => [[]] end.
Proof. exact c28_second. Qed.
Print Assumptions C28_second_query_is_empty.
(** A successful patch or selector edit mends this: its result is the same as without the query. *)
Theorem C28_mended_by_an_edit : forall E e sel r, makes_table e = true -> succeeded E e r ->
  after E e (snd (get_selector_paths sel r)) = after E e r.
Proof. exact c28_mended. Qed.
Print Assumptions C28_mended_by_an_edit.
(** Queries anywhere in a history change nothing of the document, its variables, the flag and the text. *)
Theorem C28_queries_change_no_document : forall E l r, let r1 := called E l r in let r2 := run E (edits l) r in
  r_root r1 = r_root r2 /\ r_vars r1 = r_vars r2 /\ r_schema r1 = r_schema r2 /\ r_init r1 = r_init r2 /\ r_mod r1 = r_mod r2 /\ render E r1 = render E r2.
Proof. exact c28_history. Qed.
Print Assumptions C28_queries_change_no_document.
Example C28_repeat_example :
  let r := recipe_of (nl ["a: 1  # [win]"; "b:"; "  - 2  # [win]"; "  - 3"]%string) in
  let r1 := called mini_env [CAsk $"[win]"; CAsk $"[win]"] r in
  let e := EAddSel $"/b/1" $"[win]" SMReplace in
  fst (get_selector_paths $"[win]" r) = [$"/a"; $"/b/0"] /\ fst (get_selector_paths $"[win]" r1) = [[]]
  /\ succeeded mini_env e r1 /\ fst (get_selector_paths $"[win]" (after mini_env e r1)) = [$"/a"; $"/b/0"; $"/b/1"]
  /\ splitlines (render mini_env (called mini_env [CAsk $"[win]"; CEdit e; CAsk $"[win]"] r)) = [$"a: 1  # [win]"; []; $"b:"; $"  - 2  # [win]"; $"  - 3  # [win]"].
Proof. cbv zeta. repeat split; vm_compute; reflexivity. Qed.
