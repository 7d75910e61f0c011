(** Property C62: which license is chosen. *)
From Verif Require Export ServiceSpec ReportSpec.

(** Every license can be called by its name and by its identifier. *)
Definition labels (db : list license) : list (str * str) := flat_map (fun l => [(l_name l, l_id l); (l_id l, l_id l)]) db.
(** A label belongs to the last license that has it. *)
Definition stands_for (db : list license) (label id : str) : Prop :=
  exists a b, labels db = a ++ (label, id) :: b /\ forall x, In x b -> fst x <> label.
(** The result for a text that is not an identifier, by cases. *)
Inductive chosen (close : close_match) (db : list license) (s : str) : option str -> Prop :=
| ch_known : known_id db s -> chosen close db s (Some s)
| ch_compound : ~ known_id db s -> compound s -> chosen close db s None
| ch_corrected r : ~ known_id db s -> ~ compound s -> corrected s r -> chosen close db s (Some r)
| ch_nothing_close : ~ known_id db s -> ~ compound s -> (forall r, ~ corrected s r) ->
    close s (firsts (map fst (labels db))) = None -> chosen close db s None
| ch_close label id : ~ known_id db s -> ~ compound s -> (forall r, ~ corrected s r) ->
    close s (firsts (map fst (labels db))) = Some label -> stands_for db label id -> chosen close db s (Some id)
| ch_stranger label : ~ known_id db s -> ~ compound s -> (forall r, ~ corrected s r) ->
    close s (firsts (map fst (labels db))) = Some label -> ~ In label (map fst (labels db)) -> chosen close db s None.
