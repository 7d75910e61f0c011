(** Vocabulary of the exact form of C112: log files with arbitrary lines.  Independent of the model's helper functions. *)
From Verif Require Export ScriptsSpec.

Definition opens (lines : list str) (k : nat) : Prop := nth_error lines k = Some $"{".
Definition closes (lines : list str) (j : nat) : Prop := nth_error lines j = Some $"}".
(** The lines [k] to [j], both included. *)
Definition between (lines : list str) (k j : nat) : str := join [cNL] (skipn k (firstn (S j) lines)).
Definition fails (loads : str -> option jobject) (lines : list str) (from : nat -> nat) (j : nat) : Prop :=
  closes lines j /\ loads (between lines (from j) j) = None.
(** Where the text of a closing brace begins: at the last opening brace since the last text that could not be parsed; without one
    at the first line of the file. *)
Definition begins (loads : str -> option jobject) (lines : list str) (from : nat -> nat) : Prop :=
  forall j, closes lines j ->
    (from j < j /\ opens lines (from j) /\ forall i, from j < i < j -> ~ opens lines i /\ ~ fails loads lines from i)
    \/ (from j = 0 /\ forall k, k < j -> opens lines k -> exists i, k < i < j /\ fails loads lines from i).
(** The closing braces of a file, from top to bottom. *)
Definition closings (lines : list str) : list nat := filter (fun j => match nth_error lines j with Some l => str_eqb l $"}" | None => false end) (seq 0 (length lines)).
Definition parsed (loads : str -> option jobject) (lines : list str) (from : nat -> nat) : list jobject :=
  flat_map (fun j => match loads (between lines (from j) j) with Some data => [data] | None => [] end) (closings lines).
(** Objects without a command: no information, or one that does not mention it. *)
Definition no_command (data : jobject) : Prop :=
  match assoc_prim (PStr $"info") data with
  | None => True
  | Some (JDict d) => assoc_prim (PStr $"command_name") d = None
  | Some (JList l) => Forall (fun j => json_eqb (JStr $"command_name") j = false) l
  | Some (JP (PStr s)) => ~ has_text $"command_name" s
  | Some _ => False
  end.
Inductive sorted_into : list jobject -> list jobject -> list jobject -> Prop :=
| so_none : sorted_into [] [] []
| so_unknown data l c d : no_command data -> sorted_into l c d -> sorted_into (data :: l) c d
| so_convert data v l c d : command_is data v -> json_eqb v (JStr $"convert") = true -> sorted_into l c d -> sorted_into (data :: l) (data :: c) d
| so_other data v l c d : command_is data v -> json_eqb v (JStr $"convert") = false -> sorted_into l c d -> sorted_into (data :: l) c (data :: d).
(** The files of a directory, each with the lines that remain without the stamps. *)
Definition read_file (f : log_file) : Prop := lf_is_dir f = false /\ lf_name f <> $".DS_Store".
Definition stamped (f : log_file) (ls : list (str * str)) : Prop := lf_content f = log_text ls /\ Forall log_line_ok ls.
Inductive any_logs (loads : str -> option jobject) : list log_file -> list jobject -> list jobject -> Prop :=
| al_none : any_logs loads [] [] []
| al_skipped f fs c d : ~ read_file f -> any_logs loads fs c d -> any_logs loads (f :: fs) c d
| al_file f fs ls from c1 d1 c d : read_file f -> stamped f ls -> begins loads (map snd ls) from ->
    sorted_into (parsed loads (map snd ls) from) c1 d1 -> any_logs loads fs c d -> any_logs loads (f :: fs) (c1 ++ c) (d1 ++ d).
