(** Property C154: searching a file. *)
From Verif Require Import EditProofs RenderProofs4 Samples MiniYaml PropPatch PropBump PropEditFile PropSession PropQuery PropNewFile RefProofs MentionProofs MentionSpec.

(** ** C154 *)
Theorem C154_searched : forall E xs vars, canonical_recipe E xs vars -> no_slash_key xs -> xs <> [] ->
  exists r, new_recipe E (join NLs (recipe_page xs vars)) = Ok r /\ searched E xs r /\ references_found E SV0 xs vars r.
Proof. exact c154. Qed.
Print Assumptions C154_searched.
Theorem C154_searched_in_new_format : forall E xs vars, new_file E xs vars -> no_slash_key xs -> xs <> [] ->
  exists r, new_recipe E (join NLs (page xs)) = Ok r /\ searched E xs r /\ references_found E SV1 xs vars r.
Proof. exact c154_new. Qed.
Print Assumptions C154_searched_in_new_format.
(** After any calls the file that would be written is searched. *)
Theorem C154_searched_after_session : forall E MS l xs vars xs' vars',
  canonical_recipe E xs vars -> canonical_recipe E xs' vars' -> no_slash_key xs' -> xs' <> [] ->
  acted_in_turn E MS SV0 l xs vars xs' vars' ->
  exists r, new_recipe E (join NLs (recipe_page xs vars)) = Ok r
    /\ searched E xs' (session E MS l r) /\ references_found E SV0 xs' vars' (session E MS l r).
Proof. exact c154_session. Qed.
Print Assumptions C154_searched_after_session.
(** The comment on the first line of a block is not searched, although comments are asked for. *)
Theorem C154_block_comment_refuted : exists lines, let r := recipe_of (nl lines) in
  map pr (splitlines (render mini_env r)) = ["about:"; "  description: |  # note"; "    Hello"; "  license: MIT  # note"]%string
  /\ search mini_env (contains_sub $"note") true (r_root r) = [$"/about/license"].
Proof. exists ["about:"; "  description: |  # note"; "    Hello"; "  license: MIT  # note"]%string. split; vm_compute; reflexivity. Qed.
Print Assumptions C154_block_comment_refuted.

(** A variable in the lines of a block is used when the block is rendered, but is not reported. *)
Theorem C154_block_references_refuted : exists lines, let r := recipe_of (nl lines) in
  map pr (splitlines (render mini_env r)) = ["{% set version = ""1.2.3"" %}"; ""; "about:"; "  description: |"; "    Version {{ version }}"; "  license: MIT"]%string
  /\ get_variable_references mini_env $"version" r = [].
Proof. exists ["{% set version = ""1.2.3"" %}"; ""; "about:"; "  description: |"; "    Version {{ version }}"; "  license: MIT"]%string. split; vm_compute; reflexivity. Qed.
Print Assumptions C154_block_references_refuted.

(** The file of C145: a value that is a part of another, a key without value, and comments. *)
Example C154_example :
  no_list_comment asked_items
  /\ (let root := r_root (recipe_of asked_text) in
      map pr (search mini_env (contains_sub $"o") false root) = ["/package/name"; "/source/0/url"; "/requirements/run/0"; "/about/home"]%string
      /\ map pr (flat_map (path_matching (contains_sub $"o") false) (file_rows 0 asked_items)) = ["/package/name"; "/source/0/url"; "/requirements/run/0"; "/about/home"]%string
      /\ map pr (search mini_env (contains_sub $"osx") true root) = ["/package/version"; "/requirements/run/0"]%string
      /\ search mini_env (contains_sub $"osx") false root = []).
Proof.
  split; [intros p c l HI; vm_compute in HI; repeat destruct HI as [HI|HI]; try discriminate HI; contradiction|]. cbv zeta. repeat split; vm_compute; reflexivity.
Qed.
(** The file of C137: the variable [name] is not mentioned, although a value is equal to its own. *)
Example C154_references_example :
  let xs := variable_items 3 in let vars := bump_vars $"1.2.3" $"abc" in
  canonical_recipe mini_env xs vars /\ no_slash_key xs
  /\ (let r := recipe_of (join NLs (recipe_page xs vars)) in
      get_variable_references mini_env $"version" r = [$"/package/version"] /\ get_variable_references mini_env $"sha256" r = [$"/source/sha256"]
      /\ get_variable_references mini_env $"name" r = [])
  /\ (let r := recipe_of (join NLs (page (new_items 3 $"1.2.3" [python_line]))) in
      get_variable_references mini_env $"name" r = [$"/package/name"] /\ get_variable_references mini_env $"major" r = []).
Proof.
  cbv zeta. split; [apply variables_canonical; left; auto|]. split; [repeat constructor; vm_compute; discriminate|]. repeat split; vm_compute; reflexivity.
Qed.
(** No key of that file mentions a variable. *)
Example C154_keys : forall var s, In (PStr s) (flat_map keys_of (variable_items 3)) -> ~ mentions SV0 var s.
Proof.
  intros var s HI (a & x & v & y & b & _ & H & _).
  assert (In "{"%char s) as HB by (rewrite H; apply in_or_app; right; left; reflexivity). clear H.
  cbn [variable_items flat_map keys_of app In] in HI. repeat (destruct HI as [HI|HI]; [injection HI as <-; vm_compute in HB; intuition discriminate|]). exact HI.
Qed.
