(** What has to be readable for a recipe to be converted (C129).  Nothing here is used by the model. *)
From Verif Require Export PlainSpec.

(** The sources and the summary, if there are any, denote values. *)
Definition readable_parts (E : env) (root : node) : Prop :=
  (top_line $"source" root -> exists v, get_value E root $"/source" None None = Ok v)
  /\ (top_line $"about" root -> exists v, get_value E root $"/about/summary" (Some (JStr [])) None = Ok v).
(** Every line with a comment has a path. *)
Definition comments_have_paths (E : env) (root : node) : Prop :=
  forall p n, node_at root p = Some n -> is_comment n = false -> n_comment n <> [] -> path_at E root p <> [].
