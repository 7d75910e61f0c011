(** Specification vocabulary for selector expressions (C31-C36, C66).  Nothing here is used by the model. *)
From Verif Require Export Selector SelSpec.

(** What each platform may be called in a selector, one line per platform. *)
Definition called (p : platform) : list string :=
  match p with
  | LINUX_32        => ["linux-32"; "linux"; "unix"; "x86"]
  | LINUX_64        => ["linux-64"; "linux"; "unix"; "x86"; "x86_64"]
  | LINUX_AARCH_64  => ["linux-aarch64"; "linux"; "unix"]
  | LINUX_ARM_V6L   => ["linux-armv6l"; "linux"; "unix"; "armv6l"]
  | LINUX_ARM_V7L   => ["linux-armv7l"; "linux"; "unix"; "armv7l"]
  | LINUX_PPC_64    => ["linux-ppc64"; "linux"; "unix"; "ppc64"]
  | LINUX_PPC_64_LE => ["linux-ppc64le"; "linux"; "unix"; "ppc64le"]
  | LINUX_RISC_V64  => ["linux-riscv64"; "linux"; "unix"]
  | LINUX_SYS_390   => ["linux-s390x"; "linux"; "unix"; "s390x"]
  | OSX_64          => ["osx-64"; "osx"; "unix"; "x86"; "x86_64"]
  | OSX_ARM_64      => ["osx-arm64"; "osx"; "unix"; "arm64"]
  | WIN_32          => ["win-32"; "win"; "x86"]
  | WIN_64          => ["win-64"; "win"; "x86"; "x86_64"]
  | WIN_ARM_64      => ["win-arm64"; "win"; "arm64"]
  end%string.
(** A word, in any case, is a name of the platform. *)
Definition calls (w : str) (p : platform) : bool :=
  if in_dec (list_eq_dec ascii_dec) (lower w) (map lit (called p)) then true else false.

Definition says_and (w : str) : Prop := lower w = $"and".
Definition says_or (w : str) : Prop := lower w = $"or".
Definition says_not (w : str) : Prop := lower w = $"not".
Definition plain_word (w : str) : Prop := ~ says_and w /\ ~ says_or w /\ ~ says_not w.

(** An operand is a word with any number of [not]s before it; its meaning is the truth value for each platform. *)
Inductive operand : list str -> (platform -> bool) -> Prop :=
| operand_word w : plain_word w -> operand [w] (calls w)
| operand_not n ws f : says_not n -> operand ws f -> operand (n :: ws) (fun p => negb (f p)).
(** Operands joined by [and]/[or], grouped to the right whatever the operators are. *)
Inductive right_grouped : list str -> (platform -> bool) -> Prop :=
| rg_one ws f : operand ws f -> right_grouped ws f
| rg_and ws f o ws' g : operand ws f -> says_and o -> right_grouped ws' g ->
    right_grouped (ws ++ o :: ws') (fun p => f p && g p)
| rg_or ws f o ws' g : operand ws f -> says_or o -> right_grouped ws' g ->
    right_grouped (ws ++ o :: ws') (fun p => f p || g p).
(** The same words read as Python does: [and] binds tighter than [or]. *)
Inductive conjunction : list str -> (platform -> bool) -> Prop :=
| cj_one ws f : operand ws f -> conjunction ws f
| cj_and ws f o ws' g : operand ws f -> says_and o -> conjunction ws' g ->
    conjunction (ws ++ o :: ws') (fun p => f p && g p).
Inductive python_reading : list str -> (platform -> bool) -> Prop :=
| py_one ws f : conjunction ws f -> python_reading ws f
| py_or ws f o ws' g : conjunction ws f -> says_or o -> python_reading ws' g ->
    python_reading (ws ++ o :: ws') (fun p => f p || g p).
(** No [or] stands to the right of an [and]. *)
Definition ors_first (ws : list str) : Prop :=
  forall a o1 b o2 c, ws = a ++ o1 :: b ++ o2 :: c -> says_and o1 -> ~ says_or o2.
(** Every binary operator among the words is the given one. *)
Definition only_joined_by (op : str) (ws : list str) : Prop :=
  forall w, In w ws -> says_and w \/ says_or w -> lower w = op.

(** The words end in the operand [x]; with [h] in its place they mean [F h]. *)
Inductive around_last : list str -> ((platform -> bool) -> platform -> bool) -> (platform -> bool) -> Prop :=
| al_one ws x : operand ws x -> around_last ws (fun h => h) x
| al_and ws f o ws' F x : operand ws f -> says_and o -> around_last ws' F x ->
    around_last (ws ++ o :: ws') (fun h p => f p && F h p) x
| al_or ws f o ws' F x : operand ws f -> says_or o -> around_last ws' F x ->
    around_last (ws ++ o :: ws') (fun h p => f p || F h p) x.

(** The words of a text: runs of characters that are not blank, separated by blanks. *)
Definition blank (s : str) : Prop := forall c, In c s -> is_space c = true.
Definition word (w : str) : Prop := w <> [] /\ forall c, In c w -> is_space c = false.
Inductive words_of : str -> list str -> Prop :=
| words_end s : blank s -> words_of s []
| words_cons s w rest ws : blank s -> word w -> (rest = [] \/ exists c t, rest = c :: t /\ is_space c = true) ->
    words_of rest ws -> words_of (s ++ w ++ rest) (w :: ws).
(** The selector written between brackets. *)
Definition in_brackets (text : str) : str := $"[" ++ text ++ $"]".
