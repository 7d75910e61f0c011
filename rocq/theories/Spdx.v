(** Model of licenses/spdx_utils.py. *)
From Verif Require Export Json.

(** spdx_utils.py 42-44: one entry of the license database *)
Record license := { l_id : str; l_name : str }.
(** spdx_utils.py 21-22 [SPDX_EXPRESSION_OPS].  The iteration order of the set does not matter: each operator leads to
    the same result. *)
Definition EXPRESSION_OPS : list str := [$"AND"; $"OR"; $"WITH"].
(** spdx_utils.py 39-48: the matching table (name and identifier of each license, later entries overwrite) *)
Definition matching_table (db : list license) : sdict str :=
  fold_left (fun t l => dset (l_id l) (l_id l) (dset (l_name l) (l_id l) t)) db [].
(** spdx_utils.py 41, 49: the set of identifiers *)
Definition license_ids (db : list license) : list str := map l_id db.
(** spdx_utils.py 51-58: the patch table *)
Definition patch_table : sdict str :=
  [(lit "BSD 2-CLAUSE ""SIMPLIFIED""", $"BSD-2-Clause"); ($"UNLIMITED", $"NOASSERTION")].
(** [difflib.get_close_matches(word, candidates, 1)]: at most one text; nothing is assumed about it. *)
Definition close_match := str -> list str -> option str.
(** spdx_utils.py 60-100 [find_closest_license_match] *)
Definition find_closest_license_match (close : close_match) (db : list license) (field : str) : option str :=
  if mem_str field (license_ids db) then Some field
  else
    let sanitized := upper (strip field) in
    if existsb (fun op => contains_sub op sanitized) EXPRESSION_OPS then None
    else if contains_sub $"," sanitized then None
    else match dget sanitized patch_table with
         | Some corrected => Some corrected
         | None =>
             match close field (dkeys (matching_table db)) with
             | None => None
             | Some key => dget key (matching_table db)
             end
         end.
