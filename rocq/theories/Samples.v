(** A sample recipe, parsed by the model with the small YAML reader of MiniYaml.v; used by the Examples that accompany
    the theorems (tests of non-vacuity, not proofs). *)
From Verif Require Export Access MiniYaml.

Definition nl (l : list string) : str := join [cNL] (map lit l) ++ [cNL].
Definition dq (s : string) : str := cDQ :: lit s ++ [cDQ].

Definition sample_text : str := nl [
  "package:";
  "  name: foo  # [unix]";
  "  # a comment";
  "  version: 1.2";
  "";
  "build:";
  "  number: 0";
  "  skip: true  # [win]";
  "  script:";
  "    - one";
  "    # between";
  "    - two  # [win] note";
  "    - three";
  "";
  "empty:";
  "";
  "outputs:";
  "  - name: a";
  "    number: 0";
  "  - name: b"
]%string.
Definition dummy_recipe : recipe :=
  {| r_init := []; r_root := root_node []; r_schema := SV0; r_vars := []; r_sel := []; r_mod := false |}.
Definition recipe_of (text : str) : recipe :=
  match new_recipe mini_env text with Ok r => r | Err _ => dummy_recipe end.
Definition sample : recipe := recipe_of sample_text.
Definition sample_root : node := r_root sample.

(** JSON-patch payloads. *)
Definition payload (op path : string) (rest : list (string * json)) : json :=
  JDict ((PStr $"op", JStr (lit op)) :: (PStr $"path", JStr (lit path))
         :: map (fun kv => (PStr (lit (fst kv)), snd kv)) rest).
(** Outcome and text after an edit of a text. *)
Definition edited (p : json) (text : list string) : res bool * str :=
  let o := patch mini_env p (recipe_of (nl text)) in (fst o, render mini_env (snd o)).
