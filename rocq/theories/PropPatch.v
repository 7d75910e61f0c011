(** Properties C09-C17, C20-C22: JSON patches. *)
From Verif Require Import PatchSpec PatchProofs3 AnswerProofs Samples AnswerSpec.

Ltac asks_payload := eexists; split; [reflexivity|]; split;
  [intros k v Hk; cbn in Hk; repeat (destruct Hk as [Hk|Hk]; [injection Hk as <- <-; vm_compute; tauto|]); destruct Hk
  |split; [first [left; vm_compute; reflexivity | right; eexists; vm_compute; reflexivity]
          |repeat split; first [vm_compute; reflexivity | discriminate]]].

(** ** C09 *)
Theorem C09_test_changes_nothing : forall E p path v r,
  asks p (RTest path v) ->
  snd (patch E p r) = r
  /\ (fst (patch E p r) = Ok true <->
      exists w, get_value E (r_root r) path None None = Ok w /\ json_eqb w v = true)
  /\ (fst (patch E p r) = Ok false <->
      get_value E (r_root r) path None None = Err EKey
      \/ exists w, get_value E (r_root r) path None None = Ok w /\ json_eqb w v = false).
Proof. exact c09. Qed.
Print Assumptions C09_test_changes_nothing.
Example C09_example :
  asks (payload "test" "/build/number" [("value", JInt 0)]%string) (RTest $"/build/number" (JInt 0))
  /\ fst (patch mini_env (payload "test" "/build/number" [("value", JInt 0)]%string) sample) = Ok true
  /\ fst (patch mini_env (payload "test" "/build/number" [("value", JInt 1)]%string) sample) = Ok false
  /\ fst (patch mini_env (payload "test" "/nope" [("value", JInt 1)]%string) sample) = Ok false.
Proof. split; [asks_payload|repeat split; vm_compute; reflexivity]. Qed.

(** ** C10 *)
Theorem C10_failure_changes_nothing : forall E p q r,
  asks p q -> (forall from path, q <> RMove from path) ->
  fst (patch E p r) <> Ok true -> snd (patch E p r) = r.
Proof.
  exact (fun E p q r H Hm => c10 E p q r H
    (match q as q0 return (forall from path, q0 <> RMove from path) -> is_move q0 = false with
     | RMove f s => fun Hm => match Hm f s eq_refl with end
     | _ => fun _ => eq_refl
     end Hm)).
Qed.
Print Assumptions C10_failure_changes_nothing.
Example C10_example :
  fst (patch mini_env (payload "remove" "/build/nope" []) sample) = Ok false
  /\ fst (patch mini_env (payload "add" "/build/script/7" [("value", JInt 1)]%string) sample) = Err EIndex
  /\ fst (patch mini_env (payload "copy" "/build/n" [("from", JStr $"/nope")]%string) sample) = Ok false.
Proof. repeat split; vm_compute; reflexivity. Qed.

(** ** C11 *)
(** Moving a section below itself answers False and the section is gone. *)
Theorem C11_move_into_itself_refuted : exists r p,
  asks p (RMove $"/foo" $"/foo/bar") /\ render mini_env r = nl ["foo:"; "  a: 1"]%string
  /\ fst (patch mini_env p r) = Ok false /\ render mini_env (snd (patch mini_env p r)) = []
  /\ r_mod (snd (patch mini_env p r)) = false.
Proof.
  exists (recipe_of (nl ["foo:"; "  a: 1"]%string)), (payload "move" "/foo/bar" [("from", JStr $"/foo")]%string).
  split; [asks_payload|repeat split; vm_compute; reflexivity].
Qed.
Print Assumptions C11_move_into_itself_refuted.
(** Moving the first list element to the last index raises IndexError after the element was removed. *)
Theorem C11_move_to_last_refuted : exists r p,
  asks p (RMove $"/l/0" $"/l/2") /\ render mini_env r = nl ["l:"; "  - a"; "  - b"; "  - c"]%string
  /\ fst (patch mini_env p r) = Err EIndex
  /\ render mini_env (snd (patch mini_env p r)) = nl ["l:"; "  - b"; "  - c"]%string.
Proof.
  exists (recipe_of (nl ["l:"; "  - a"; "  - b"; "  - c"]%string)), (payload "move" "/l/2" [("from", JStr $"/l/0")]%string).
  split; [asks_payload|repeat split; vm_compute; reflexivity].
Qed.
Print Assumptions C11_move_to_last_refuted.
(** What holds: after a failed move the recipe is unchanged or differs exactly by the removal of the source (missing: it
    is always unchanged, which is false). *)
Theorem C11_failed_move_partial : forall E p pr from path r r' o,
  asks p (RMove from path) -> asks pr (RRemove from) -> patch E p r = (o, r') -> o <> Ok true ->
  r' = r \/ (exists v r1, get_value E (r_root r) from None None = Ok v /\ patch E pr r = (Ok true, r1)
                          /\ r' = with_root r (r_root r1)).
Proof. exact c11_failed. Qed.
Print Assumptions C11_failed_move_partial.
(** The exact outcome: if the value could not be added to the recipe as it is, or the source cannot be removed, the move
    fails and changes nothing.  Otherwise the source is removed and the value added to what is left; if that addition
    fails, the source stays removed, and nothing else of the recipe changes. *)
Theorem C11_outcome : forall E p pa pr from cs v r, Forall component cs ->
  asks p (RMove from (path_text cs)) -> asks pr (RRemove from) -> asks pa (RAdd (path_text cs) v) -> from <> path_text cs ->
  get_value E (r_root r) from None None = Ok v ->
  (exists lines, written_as E v lines) -> (exists lines, written_as E (JDict [(PStr (last cs []), v)]) lines) ->
  (fst (patch E pa r) <> Ok true -> patch E p r = (fst (patch E pa r), r))
  /\ (fst (patch E pa r) = Ok true -> fst (patch E pr r) <> Ok true -> patch E p r = (fst (patch E pr r), r))
  /\ (fst (patch E pa r) = Ok true -> forall r1, patch E pr r = (Ok true, r1) ->
      (fst (patch E pa r1) = Ok true -> patch E p r = patch E pa r1)
      /\ (fst (patch E pa r1) <> Ok true -> patch E p r = (fst (patch E pa r1), with_root r (r_root r1)))).
Proof. exact move_outcome. Qed.
Print Assumptions C11_outcome.
Theorem C11_unreadable_source_partial : forall E p from path r,
  asks p (RMove from path) -> (forall v, get_value E (r_root r) from None None <> Ok v) -> from <> path ->
  snd (patch E p r) = r /\ fst (patch E p r) <> Ok true.
Proof. exact c11_early. Qed.
Print Assumptions C11_unreadable_source_partial.

(** ** C12 *)
Theorem C12_remove_deletes_exactly : forall E p s r r',
  proper_tree (r_root r) = true -> asks p (RRemove s) -> patch E p r = (Ok true, r') ->
  exists q i, addresses (r_root r) s (q ++ [i]) /\ changed_at (line_removed i) q (r_root r) (r_root r')
              /\ same_but_tree r r'.
Proof. exact c12_success. Qed.
Print Assumptions C12_remove_deletes_exactly.
Theorem C12_when_remove_succeeds : forall E p cs r,
  proper_tree (r_root r) = true -> asks p (RRemove (path_text cs)) -> Forall component cs ->
  (exists b, fst (patch E p r) = Ok b) /\
  (fst (patch E p r) = Ok true <->
   exists q i x, addresses (r_root r) (path_text cs) (q ++ [i]) /\ node_at (r_root r) (q ++ [i]) = Some x
                 /\ bare_value x = false).
Proof. exact c12_when. Qed.
Print Assumptions C12_when_remove_succeeds.
Theorem C12_removed_key_is_gone : forall E p cs c r r',
  proper_tree (r_root r) = true ->
  Forall component (cs ++ [c]) -> isdigit c = false -> asks p (RRemove (path_text (cs ++ [c]))) ->
  (forall n, lookup (r_root r) (path_text cs ++ $"/") = Some n ->
     (forall i j x y, nth_error (n_children n) i = Some x -> nth_error (n_children n) j = Some y ->
                      names c x -> names c y -> i = j)
     /\ (n_value n = VSent -> n_comment n <> [] -> length (n_children n) > 1)) ->
  patch E p r = (Ok true, r') -> contains_value (r_root r') (path_text (cs ++ [c])) = Ok false.
Proof. exact c12_gone. Qed.
Print Assumptions C12_removed_key_is_gone.
(** Without the last condition: removing the only key of a list element that carries a comment turns the element into a
    comment line, the following elements move up, and the removed path names the next element's key. *)
Theorem C12_emptied_element_refuted : exists r p,
  asks p (RRemove $"/list/0/name") /\ render mini_env r = nl ["list:"; "  - name: a  # [unix]"; "  - name: b"]%string
  /\ fst (patch mini_env p r) = Ok true
  /\ contains_value (r_root (snd (patch mini_env p r))) $"/list/0/name" = Ok true
  /\ render mini_env (snd (patch mini_env p r)) = nl ["list:"; "  # [unix]"; "  - name: b"]%string.
Proof.
  exists (recipe_of (nl ["list:"; "  - name: a  # [unix]"; "  - name: b"]%string)), (payload "remove" "/list/0/name" []).
  split; [asks_payload|repeat split; vm_compute; reflexivity].
Qed.
Print Assumptions C12_emptied_element_refuted.
Example C12_example :
  proper_tree sample_root = true /\ asks (payload "remove" "/build/script/1" []) (RRemove $"/build/script/1")
  /\ edited (payload "remove" "/l/1" []) ["l:"; "  - a  # one"; "  # two"; "  - b  # three"; "  - c"]%string
     = (Ok true, nl ["l:"; "  - a  # one"; "  # two"; "  - c"]%string)
  /\ edited (payload "remove" "/a/b" []) ["a:"; "  # x"; "  b: 1"; "  c: 2"]%string
     = (Ok true, nl ["a:"; "  # x"; "  c: 2"]%string).
Proof. split; [vm_compute; reflexivity|]. split; [asks_payload|]. split; vm_compute; reflexivity. Qed.

(** ** C13 *)
Theorem C13_replace_substitutes_exactly : forall E p s v r r',
  asks p (RReplace s v) -> patch E p r = (Ok true, r') ->
  same_but_tree r r' /\ exists lines, written_as E v lines /\
  ((exists q n, addresses (r_root r) s q /\ node_at (r_root r) q = Some n /\ bare_value n = false
                /\ (n_lmf n = true -> collection_element n = true
                                      \/ exists c above, str_to_stack_path s = Ok (c :: above) /\ isdigit c = false)
                /\ changed_at (content_replaced lines) q (r_root r) (r_root r'))
   \/ (exists q i x, addresses (r_root r) s (q ++ [i]) /\ node_at (r_root r) (q ++ [i]) = Some x
                     /\ n_lmf x = true /\ collection_element x = false
                     /\ (exists c above, str_to_stack_path s = Ok (c :: above) /\ isdigit c = true)
                     /\ changed_at (line_replaced i (as_element v lines)) q (r_root r) (r_root r'))).
Proof. exact c13_success. Qed.
Print Assumptions C13_replace_substitutes_exactly.
Theorem C13_when_replace_succeeds : forall E p cs v r q n lines,
  asks p (RReplace (path_text cs) v) -> Forall component cs ->
  addresses (r_root r) (path_text cs) q -> node_at (r_root r) q = Some n -> bare_value n = false ->
  written_as E v lines -> fst (patch E p r) = Ok true.
Proof. exact c13_when. Qed.
Print Assumptions C13_when_replace_succeeds.
Example C13_example :
  edited (payload "replace" "/l/1" [("value", JStr $"x")]%string) ["l:"; "  - a"; "  # two"; "  - b"; "  - c"]%string
     = (Ok true, nl ["l:"; "  - a"; "  # two"; "  - x"; "  - c"]%string)
  /\ edited (payload "replace" "/a/b" [("value", JInt 7)]%string) ["a:"; "  # x"; "  b: 1"; "  c: 2"]%string
     = (Ok true, nl ["a:"; "  # x"; "  b: 7"; "  c: 2"]%string)
  /\ edited (payload "replace" "/a/b" [("value", JList [JStr $"u"; JStr $"v"])]%string) ["a:"; "  b: 1"; "  c: 2"]%string
     = (Ok true, nl ["a:"; "  b:"; "    - u"; "    - v"; "  c: 2"]%string).
Proof. repeat split; vm_compute; reflexivity. Qed.

(** ** C14 *)
Theorem C14_add_new_key : forall E p cs c v r q n lines,
  asks p (RAdd (path_text (cs ++ [c])) v) -> Forall component (cs ++ [c]) -> isdigit c = false -> c <> $"-" ->
  addresses (r_root r) (path_text cs ++ $"/") q -> node_at (r_root r) q = Some n ->
  bare_value n = false -> (n_lmf n = false \/ collection_element n = true) ->
  (forall x, In x (n_children n) -> ~ names c x) -> written_as E (JDict [(PStr c, v)]) lines ->
  exists r', patch E p r = (Ok true, r') /\ same_but_tree r r'
             /\ changed_at (lines_appended lines) q (r_root r) (r_root r').
Proof. exact c14_new_key. Qed.
Print Assumptions C14_add_new_key.
Theorem C14_add_existing_key : forall E p cs c v r q n lines,
  asks p (RAdd (path_text (cs ++ [c])) v) -> Forall component (cs ++ [c]) -> isdigit c = false -> c <> $"-" ->
  addresses (r_root r) (path_text (cs ++ [c])) q -> node_at (r_root r) q = Some n -> bare_value n = false ->
  written_as E v lines ->
  exists r', patch E p r = (Ok true, r') /\ same_but_tree r r'
             /\ changed_at (content_replaced lines) q (r_root r) (r_root r').
Proof. exact c14_existing_key. Qed.
Print Assumptions C14_add_existing_key.
Theorem C14_add_at_index : forall E p cs c v r q i x lines,
  asks p (RAdd (path_text (cs ++ [c])) v) -> Forall component (cs ++ [c]) -> isdigit c = true ->
  addresses (r_root r) (path_text (cs ++ [c])) (q ++ [i]) -> node_at (r_root r) (q ++ [i]) = Some x ->
  collection_element x = false -> written_as E v lines ->
  exists r', patch E p r = (Ok true, r') /\ same_but_tree r r'
             /\ changed_at (lines_inserted i (as_element v lines)) q (r_root r) (r_root r').
Proof. exact c14_index. Qed.
Print Assumptions C14_add_at_index.
Theorem C14_add_at_end : forall E p cs v r q n lines,
  asks p (RAdd (path_text (cs ++ [$"-"])) v) -> Forall component cs ->
  addresses (r_root r) (path_text cs ++ $"/") q -> node_at (r_root r) q = Some n ->
  bare_value n = false -> (n_lmf n = false \/ collection_element n = true) -> written_as E v lines ->
  exists r', patch E p r = (Ok true, r') /\ same_but_tree r r'
             /\ changed_at (lines_appended (as_element v lines)) q (r_root r) (r_root r').
Proof. exact c14_dash. Qed.
Print Assumptions C14_add_at_end.
Theorem C14_add_is_local : forall E p s v r r',
  asks p (RAdd s v) -> patch E p r = (Ok true, r') ->
  same_but_tree r r' /\
  exists q, changed_at (fun n n' => (exists l, content_replaced l n n') \/ (exists l, lines_appended l n n')
                                    \/ (exists i l, lines_inserted i l n n')) q (r_root r) (r_root r').
Proof. exact c14_local. Qed.
Print Assumptions C14_add_is_local.
Example C14_example :
  edited (payload "add" "/a/d" [("value", JInt 3)]%string) ["a:"; "  b: 1"; "c: 2"]%string
     = (Ok true, nl ["a:"; "  b: 1"; "  d: 3"; ""; "c: 2"]%string)
  /\ edited (payload "add" "/a/b" [("value", JInt 3)]%string) ["a:"; "  b: 1"; "  c: 2"]%string
     = (Ok true, nl ["a:"; "  b: 3"; "  c: 2"]%string)
  /\ edited (payload "add" "/l/1" [("value", JStr $"x")]%string) ["l:"; "  - a"; "  # two"; "  - b"]%string
     = (Ok true, nl ["l:"; "  - a"; "  # two"; "  - x"; "  - b"]%string)
  /\ edited (payload "add" "/l/-" [("value", JStr $"x")]%string) ["l:"; "  - a"; "  - b"]%string
     = (Ok true, nl ["l:"; "  - a"; "  - b"; "  - x"]%string)
  /\ edited (payload "add" "/l/0/v" [("value", JStr $"x")]%string) ["l:"; "  - a: 1"; "  - b: 2"]%string
     = (Ok true, nl ["l:"; "  - a: 1"; "    v: x"; "  - b: 2"]%string).
Proof. repeat split; vm_compute; reflexivity. Qed.

(** ** C15 *)
Theorem C15_copy_is_add_of_the_read_value : forall E p pa from path r v,
  asks p (RCopy from path) -> asks pa (RAdd path v) -> get_value E (r_root r) from None None = Ok v ->
  patch E p r = patch E pa r.
Proof. exact c15_ok. Qed.
Print Assumptions C15_copy_is_add_of_the_read_value.
Theorem C15_missing_source : forall E p from path r,
  asks p (RCopy from path) -> get_value E (r_root r) from None None = Err EKey -> patch E p r = (Ok false, r).
Proof. exact c15_missing. Qed.
Print Assumptions C15_missing_source.
Theorem C15_unreadable_source : forall E p from path r e,
  asks p (RCopy from path) -> e <> EKey -> get_value E (r_root r) from None None = Err e -> patch E p r = (Err e, r).
Proof. exact c15_unreadable. Qed.
Print Assumptions C15_unreadable_source.
Example C15_example :
  asks (payload "copy" "/c" [("from", JStr $"/a/b")]%string) (RCopy $"/a/b" $"/c")
  /\ edited (payload "copy" "/c" [("from", JStr $"/a/b")]%string) ["a:"; "  b: 1  # keep"]%string
     = (Ok true, nl ["a:"; "  b: 1  # keep"; ""; "c: 1"]%string).
Proof. split; [asks_payload|vm_compute; reflexivity]. Qed.

(** ** C16 *)
Theorem C16_move_is_remove_then_add : forall E p pr from path r r',
  from <> path -> asks p (RMove from path) -> asks pr (RRemove from) -> patch E p r = (Ok true, r') ->
  exists v r1, get_value E (r_root r) from None None = Ok v /\ patch E pr r = (Ok true, r1)
    /\ forall pa, asks pa (RAdd path v) -> patch E pa r1 = (Ok true, r').
Proof. exact c16_success. Qed.
Print Assumptions C16_move_is_remove_then_add.
Theorem C16_move_onto_itself : forall E p s r, asks p (RMove s s) -> patch E p r = (Ok true, r).
Proof. exact c16_self. Qed.
Print Assumptions C16_move_onto_itself.
Example C16_example :
  edited (payload "move" "/l/0" [("from", JStr $"/l/2")]%string) ["l:"; "  - a"; "  - b"; "  - c"]%string
     = (Ok true, nl ["l:"; "  - c"; "  - a"; "  - b"]%string)
  /\ edited (payload "move" "/c" [("from", JStr $"/a/b")]%string) ["a:"; "  b: 1  # keep"; "  d: 2"]%string
     = (Ok true, nl ["a:"; "  d: 2"; ""; "c: 1"]%string).
Proof. split; vm_compute; reflexivity. Qed.

(** ** C17 *)
Theorem C17_index_out_of_range_refuted : exists r pa pr,
  asks pa (RAdd $"/l/1" (JInt 1)) /\ asks pr (RReplace $"/l/1" (JInt 1))
  /\ fst (patch mini_env pa r) = Err EIndex /\ fst (patch mini_env pr r) = Err EIndex.
Proof.
  exists (recipe_of (nl ["l:"; "  - a"]%string)), (payload "add" "/l/1" [("value", JInt 1)]%string),
         (payload "replace" "/l/1" [("value", JInt 1)]%string).
  split; [asks_payload|]. split; [asks_payload|]. split; vm_compute; reflexivity.
Qed.
Print Assumptions C17_index_out_of_range_refuted.
(** An empty source passes the schema and raises IndexError. *)
Theorem C17_empty_source_refuted : exists r p,
  asks p (RCopy [] $"/b") /\ fst (patch mini_env p r) = Err EIndex.
Proof.
  exists (recipe_of (nl ["a: 1"]%string)), (payload "copy" "/b" [("from", JStr [])]%string).
  split; [asks_payload|]. vm_compute; reflexivity.
Qed.
Print Assumptions C17_empty_source_refuted.
Theorem C17_remove_answers_partial : forall E p s r,
  proper_tree (r_root r) = true -> asks p (RRemove s) -> exists b, fst (patch E p r) = Ok b.
Proof. exact c17_remove. Qed.
Print Assumptions C17_remove_answers_partial.
Theorem C17_named_replace_answers_partial : forall E p cs v r,
  Forall component cs -> Forall (fun c => isdigit c = false) cs ->
  asks p (RReplace (path_text cs) v) -> (exists lines, written_as E v lines) -> exists b, fst (patch E p r) = Ok b.
Proof. exact c17_replace. Qed.
Print Assumptions C17_named_replace_answers_partial.
Theorem C17_named_add_answers_partial : forall E p cs v r,
  Forall component cs -> Forall (fun c => isdigit c = false) cs ->
  asks p (RAdd (path_text cs) v) -> (exists lines, written_as E v lines) ->
  (exists lines, written_as E (JDict [(PStr (last cs []), v)]) lines) -> exists b, fst (patch E p r) = Ok b.
Proof. exact c17_add. Qed.
Print Assumptions C17_named_add_answers_partial.

(** Exactly when the operations raise, for values that can be written: the path ends in a number beyond the lines that
    are there (for an operation that may create its last component, also when the path above it does). *)
Theorem C17_replace_answers : forall E p cs v r, Forall component cs -> asks p (RReplace (path_text cs) v) ->
  (exists lines, written_as E v lines) ->
  (beyond (r_root r) cs /\ fst (patch E p r) = Err EIndex)
  \/ (~ beyond (r_root r) cs /\ exists b, fst (patch E p r) = Ok b).
Proof. exact replace_answers. Qed.
Print Assumptions C17_replace_answers.
Theorem C17_add_answers : forall E p cs v r, Forall component cs -> asks p (RAdd (path_text cs) v) ->
  (exists lines, written_as E v lines) -> (exists lines, written_as E (JDict [(PStr (last cs []), v)]) lines) ->
  (beyond_to_add (r_root r) cs /\ fst (patch E p r) = Err EIndex)
  \/ (~ beyond_to_add (r_root r) cs /\ exists b, fst (patch E p r) = Ok b).
Proof. exact add_answers. Qed.
Print Assumptions C17_add_answers.
Theorem C17_copy_answers : forall E p from cs v r, Forall component cs -> asks p (RCopy from (path_text cs)) ->
  get_value E (r_root r) from None None = Ok v ->
  (exists lines, written_as E v lines) -> (exists lines, written_as E (JDict [(PStr (last cs []), v)]) lines) ->
  (beyond_to_add (r_root r) cs /\ fst (patch E p r) = Err EIndex)
  \/ (~ beyond_to_add (r_root r) cs /\ exists b, fst (patch E p r) = Ok b).
Proof. exact copy_answers. Qed.
Print Assumptions C17_copy_answers.
(** A move also raises when the path is beyond the lines that are left after the removal of the source. *)
Theorem C17_move_answers : forall E p pr from cs v r, proper_tree (r_root r) = true -> Forall component cs ->
  asks p (RMove from (path_text cs)) -> asks pr (RRemove from) -> from <> path_text cs ->
  get_value E (r_root r) from None None = Ok v ->
  (exists lines, written_as E v lines) -> (exists lines, written_as E (JDict [(PStr (last cs []), v)]) lines) ->
  (fst (patch E p r) = Err EIndex
   /\ (beyond_to_add (r_root r) cs \/ exists r1, patch E pr r = (Ok true, r1) /\ beyond_to_add (r_root r1) cs))
  \/ (~ beyond_to_add (r_root r) cs /\ exists b, fst (patch E p r) = Ok b).
Proof. exact move_answers. Qed.
Print Assumptions C17_move_answers.
(** A number below a mapping raises as well, and so does a new key below a missing element. *)
Example C17_example :
  let r := recipe_of (nl ["m:"; "  a: 1"; "l:"; "  - x"]%string) in
  fst (patch mini_env (payload "replace" "/m/1" [("value", JInt 1)]%string) r) = Err EIndex
  /\ fst (patch mini_env (payload "add" "/l/1/k" [("value", JInt 1)]%string) r) = Err EIndex
  /\ fst (patch mini_env (payload "add" "/l/0" [("value", JInt 1)]%string) r) = Ok true
  /\ fst (patch mini_env (payload "replace" "/q/7" [("value", JInt 1)]%string) r) = Ok false.
Proof. repeat split; vm_compute; reflexivity. Qed.

(** ** C20 *)
Theorem C20_schema_gate : forall E p r,
  (fst (patch E p r) = Err EPatchSchema <-> ~ exists q, asks p q)
  /\ ((~ exists q, asks p q) -> snd (patch E p r) = r).
Proof. exact c20. Qed.
Print Assumptions C20_schema_gate.
Example C20_example :
  fst (patch mini_env (payload "add" "/a" []) sample) = Err EPatchSchema
  /\ fst (patch mini_env (payload "remove" "/a" [("extra", JInt 1)]%string) sample) = Err EPatchSchema
  /\ fst (patch mini_env (payload "rename" "/a" []) sample) = Err EPatchSchema
  /\ fst (patch mini_env (payload "remove" "" []) sample) = Err EPatchSchema
  /\ fst (patch mini_env (payload "move" "/a" [("from", JInt 1)]%string) sample) = Err EPatchSchema
  /\ fst (patch mini_env (JList []) sample) = Err EPatchSchema.
Proof. repeat split; vm_compute; reflexivity. Qed.

(** ** C21 *)
Theorem C21_search_and_patch : forall E rx d ic r o r',
  search_and_patch E rx d ic r = (o, r') <->
  in_order E d (map (path_at E (r_root r))
                    (positions_where (fun n => terminal n && rx (shown_text ic n)) (r_root r))) r o r'.
Proof. exact c21. Qed.
Print Assumptions C21_search_and_patch.
Theorem C21_true_means_all_applied : forall E d ps r r',
  in_order E d ps r (Ok true) r' <->
  exists rs, length rs = length ps /\ last rs r = r'
    /\ forall i s, nth_error ps i = Some s ->
        exists a b, nth_error (r :: rs) i = Some a /\ nth_error rs i = Some b
                    /\ patch E (JDict (with_path s d)) a = (Ok true, b).
Proof. exact in_order_true. Qed.
Print Assumptions C21_true_means_all_applied.
Example C21_example :
  let o := search_and_patch mini_env (str_eqb $"0") [(PStr $"op", JStr $"replace"); (PStr $"value", JInt 5)] false sample in
  fst o = Ok true
  /\ get_value mini_env (r_root (snd o)) $"/build/number" None None = Ok (JInt 5)
  /\ get_value mini_env (r_root (snd o)) $"/outputs/0/number" None None = Ok (JInt 5).
Proof. repeat split; vm_compute; reflexivity. Qed.

(** ** C22 *)
(** At the index of an element that is a mapping, add overwrites the element instead of inserting before it. *)
Theorem C22_insert_before_mapping_refuted : exists r p,
  asks p (RAdd $"/l/0" (JDict [(PStr $"n", JStr $"x")]))
  /\ render mini_env r = nl ["l:"; "  - n: a"; "  - n: b"]%string
  /\ fst (patch mini_env p r) = Ok true
  /\ render mini_env (snd (patch mini_env p r)) = nl ["l:"; "  - n: x"; "  - n: b"]%string.
Proof.
  exists (recipe_of (nl ["l:"; "  - n: a"; "  - n: b"]%string)),
         (payload "add" "/l/0" [("value", JDict [(PStr $"n", JStr $"x")])]%string).
  split; [asks_payload|]. repeat split; vm_compute; reflexivity.
Qed.
Print Assumptions C22_insert_before_mapping_refuted.
(** There, and wherever else the path leads to something that is no plain list element, add does what replace does. *)
Theorem C22_add_over_existing : forall E pa pp cs v r q n, Forall component cs -> last cs [] <> $"-" ->
  addresses (r_root r) (path_text cs) q -> node_at (r_root r) q = Some n ->
  isdigit (last cs []) = false \/ collection_element n = true ->
  asks pa (RAdd (path_text cs) v) -> asks pp (RReplace (path_text cs) v) -> patch E pa r = patch E pp r.
Proof. exact add_over_existing. Qed.
Print Assumptions C22_add_over_existing.
(** It holds when the element at the index is a plain value (missing: mappings and nested lists, where it is false). *)
Theorem C22_insert_before_plain_partial : forall E p cs c v r q i x lines,
  asks p (RAdd (path_text (cs ++ [c])) v) -> Forall component (cs ++ [c]) -> isdigit c = true ->
  addresses (r_root r) (path_text (cs ++ [c])) (q ++ [i]) -> node_at (r_root r) (q ++ [i]) = Some x ->
  collection_element x = false -> written_as E v lines ->
  exists r', patch E p r = (Ok true, r') /\ same_but_tree r r'
             /\ changed_at (lines_inserted i (as_element v lines)) q (r_root r) (r_root r').
Proof. exact c14_index. Qed.
Print Assumptions C22_insert_before_plain_partial.
