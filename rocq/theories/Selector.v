(** Model of parser/platform_types.py, parser/selector_query.py and parser/selector_parser.py. *)
From Verif Require Export PyStr Reader.

(** platform_types.py 15-23 [OperatingSystem] *)
Inductive os := LINUX | OSX | UNIX | WINDOWS.
Definition all_os : list os := [LINUX; OSX; UNIX; WINDOWS].
Definition os_str (o : os) : str :=
  match o with LINUX => $"linux" | OSX => $"osx" | UNIX => $"unix" | WINDOWS => $"win" end.
(** platform_types.py 30-42 [Arch] *)
Inductive arch := SYS_390 | X_86 | X_86_64 | ARM_64 | ARM_V6L | ARM_V7L | PPC_64 | PPC_64_LE.
Definition all_arch : list arch := [SYS_390; X_86; X_86_64; ARM_64; ARM_V6L; ARM_V7L; PPC_64; PPC_64_LE].
Definition arch_str (a : arch) : str :=
  match a with
  | SYS_390 => $"s390x" | X_86 => $"x86" | X_86_64 => $"x86_64" | ARM_64 => $"arm64"
  | ARM_V6L => $"armv6l" | ARM_V7L => $"armv7l" | PPC_64 => $"ppc64" | PPC_64_LE => $"ppc64le"
  end.
(** platform_types.py 49-71 [Platform] *)
Inductive platform :=
| LINUX_32 | LINUX_64 | LINUX_AARCH_64 | LINUX_ARM_V6L | LINUX_ARM_V7L | LINUX_PPC_64 | LINUX_PPC_64_LE | LINUX_RISC_V64
| LINUX_SYS_390 | OSX_64 | OSX_ARM_64 | WIN_32 | WIN_64 | WIN_ARM_64.
Definition all_platforms : list platform :=
  [LINUX_32; LINUX_64; LINUX_AARCH_64; LINUX_ARM_V6L; LINUX_ARM_V7L; LINUX_PPC_64; LINUX_PPC_64_LE; LINUX_RISC_V64;
   LINUX_SYS_390; OSX_64; OSX_ARM_64; WIN_32; WIN_64; WIN_ARM_64].
Definition platform_str (p : platform) : str :=
  match p with
  | LINUX_32 => $"linux-32" | LINUX_64 => $"linux-64" | LINUX_AARCH_64 => $"linux-aarch64"
  | LINUX_ARM_V6L => $"linux-armv6l" | LINUX_ARM_V7L => $"linux-armv7l" | LINUX_PPC_64 => $"linux-ppc64"
  | LINUX_PPC_64_LE => $"linux-ppc64le" | LINUX_RISC_V64 => $"linux-riscv64" | LINUX_SYS_390 => $"linux-s390x"
  | OSX_64 => $"osx-64" | OSX_ARM_64 => $"osx-arm64"
  | WIN_32 => $"win-32" | WIN_64 => $"win-64" | WIN_ARM_64 => $"win-arm64"
  end.
Definition platform_eqb (p q : platform) : bool := str_eqb (platform_str p) (platform_str q).
(** [Enum(s)] and [s in set(Enum)]: the member with that text. *)
Definition platform_of (s : str) : option platform := find (fun p => str_eqb (platform_str p) s) all_platforms.
Definition os_of (s : str) : option os := find (fun o => str_eqb (os_str o) s) all_os.
Definition arch_of (s : str) : option arch := find (fun a => str_eqb (arch_str a) s) all_arch.

(** A Python [set[Platform]], as its membership test. *)
Definition platset := platform -> bool.
Definition set_of (l : list platform) : platset := fun p => existsb (platform_eqb p) l.
Definition set_union (a b : platset) : platset := fun p => a p || b p.
Definition set_inter (a b : platset) : platset := fun p => a p && b p.
Definition set_minus (a b : platset) : platset := fun p => a p && negb (b p).

(** platform_types.py 88-120 [get_platforms_by_arch]; members of the enumeration are strings as well, so every call
    goes through the look-up by text. *)
Definition x86_64_set : platset := set_of [LINUX_64; OSX_64; WIN_64].
Definition get_platforms_by_arch (s : str) : platset :=
  match arch_of (lower (strip s)) with
  | None => set_of []
  | Some SYS_390 => set_of [LINUX_SYS_390]
  | Some X_86 => set_union (set_of [LINUX_32; WIN_32]) x86_64_set
  | Some X_86_64 => x86_64_set
  | Some ARM_64 => set_of [OSX_ARM_64; WIN_ARM_64]
  | Some ARM_V6L => set_of [LINUX_ARM_V6L]
  | Some ARM_V7L => set_of [LINUX_ARM_V7L]
  | Some PPC_64 => set_of [LINUX_PPC_64]
  | Some PPC_64_LE => set_of [LINUX_PPC_64_LE]
  end.
(** platform_types.py 123-164 [get_platforms_by_os] *)
Definition osx_set : platset := set_of [OSX_64; OSX_ARM_64].
Definition linux_set : platset :=
  set_of [LINUX_32; LINUX_64; LINUX_AARCH_64; LINUX_ARM_V6L; LINUX_ARM_V7L; LINUX_PPC_64; LINUX_PPC_64_LE; LINUX_RISC_V64;
          LINUX_SYS_390].
Definition get_platforms_by_os (s : str) : platset :=
  match os_of (lower (strip s)) with
  | None => set_of []
  | Some LINUX => linux_set
  | Some OSX => osx_set
  | Some UNIX => set_union osx_set linux_set
  | Some WINDOWS => set_of [WIN_32; WIN_64; WIN_ARM_64]
  end.

(** enums.py 31-42 [LogicOp] *)
Inductive logic_op := AND | OR | NOT.
Definition all_logic_ops : list logic_op := [AND; OR; NOT].
Definition logic_str (o : logic_op) : str := match o with AND => $"and" | OR => $"or" | NOT => $"not" end.
Definition logic_of (s : str) : option logic_op := find (fun o => str_eqb (logic_str o) s) all_logic_ops.

(** selector_parser.py 25-26 [SelectorValue] *)
Inductive svalue := SVPlatform (p : platform) | SVOs (o : os) | SVArch (a : arch) | SVOp (o : logic_op) | SVText (s : str).
(** selector_parser.py 42-52 [_init_value] *)
Definition init_value (value : str) : svalue :=
  let l := lower value in
  match platform_of l with
  | Some p => SVPlatform p
  | None => match os_of l with
            | Some o => SVOs o
            | None => match arch_of l with
                      | Some a => SVArch a
                      | None => match logic_of l with
                                | Some o => SVOp o
                                | None => SVText value
                                end
                      end
            end
  end.
(** [str(value)] *)
Definition svalue_str (v : svalue) : str :=
  match v with
  | SVPlatform p => platform_str p | SVOs o => os_str o | SVArch a => arch_str a | SVOp o => logic_str o | SVText s => s
  end.

(** selector_parser.py 29-57: a node of the parse tree with its optional left and right nodes *)
Inductive stree := SNone | SNode (v : svalue) (l r : stree).
(** selector_parser.py 59-67 [__str__] of a node *)
Fixpoint node_str (t : stree) : str :=
  match t with
  | SNone => []
  | SNode v l r =>
      svalue_str v ++ match l with SNone => [] | _ => $" L " ++ node_str l end
      ++ match r with SNone => [] | _ => $" R " ++ node_str r end
  end.
(** selector_parser.py 77-83 [is_logical_op].  A text that is one of the operators has become the operator. *)
Definition is_logical_op (v : svalue) : bool := match v with SVOp _ => true | _ => false end.
Definition is_not (v : svalue) : bool := match v with SVOp NOT => true | _ => false end.

(** selector_parser.py 91-107 [_process_postfix_stack].  The stack is given from its top; the result is the tree and what
    is left on the stack.  The Python function is recursive; its depth is at most the length of the stack, which is the
    fuel here.  (Simplification: the interpreter's recursion limit is not modelled.) *)
Fixpoint process_postfix (fuel : nat) (stack : list svalue) : stree * list svalue :=
  match fuel with
  | 0 => (SNone, stack)
  | S f =>
      match stack with
      | [] => (SNone, [])
      | v :: st =>
          match v with
          | SVOp NOT => let '(l, st1) := process_postfix f st in (SNode v l SNone, st1)
          | SVOp _ => let '(r, st1) := process_postfix f st in
                      let '(l, st2) := process_postfix f st1 in (SNode v l r, st2)
          | _ => (SNode v SNone SNone, st)
          end
      end
  end.
(** selector_parser.py 126-128: the leading [not]s of the operator stack go to the output.  Both stacks are given from
    their top. *)
Fixpoint pop_nots (ops out : list svalue) : list svalue * list svalue :=
  match ops with
  | v :: ops' => if is_not v then pop_nots ops' (v :: out) else (ops, out)
  | [] => ([], out)
  end.
(** selector_parser.py 118-134: the token loop *)
Fixpoint shunt (tokens : list str) (ops out : list svalue) : list svalue :=
  match tokens with
  | [] => rev ops ++ out
  | t :: ts =>
      let v := init_value t in
      if is_logical_op v then
        let '(ops1, out1) := if is_not v then (ops, out) else pop_nots ops out in
        shunt ts (v :: ops1) out1
      else shunt ts ops (v :: out)
  end.
(** selector_parser.py 109-139 [_parse_selector_tree] *)
Definition parse_selector_tree (tokens : list str) : stree :=
  let postfix := shunt tokens [] [] in
  fst (process_postfix (S (length postfix)) postfix).

Record selector := { s_content : str; s_schema : schema; s_root : stree }.
(** selector_parser.py 141-160 [__init__] *)
Definition init_content (content : str) (sv : schema) : str :=
  match sv, content with
  | SV0, c :: _ => if ceq c cLB && ceq (last content cSP) cRB then removelast (tl content) else content
  | _, _ => content
  end.
Definition selector_parser (content : str) (sv : schema) : selector :=
  let c := init_content content sv in
  {| s_content := c; s_schema := sv; s_root := parse_selector_tree (split_ws c) |}.
(** selector_parser.py 162-168 [__str__] *)
Definition selector_str (s : selector) : str :=
  $"Schema: V" ++ (match s_schema s with SV0 => $"0" | SV1 => $"1" end) ++ $" | Tree: "
  ++ match s_root s with SNone => $"None" | t => node_str t end.
(** selector_parser.py 170-179 [__eq__], for another selector *)
Definition selector_eqb (a b : selector) : bool :=
  schema_eqb (s_schema a) (s_schema b) && str_eqb (selector_str a) (selector_str b).
(** selector_parser.py 189-210 [_eval_node] *)
Fixpoint eval_node (t : stree) : platset :=
  match t with
  | SNone => set_of []
  | SNode v l r =>
      match v with
      | SVPlatform p => set_of [p]
      | SVArch a => get_platforms_by_arch (arch_str a)
      | SVOs o => get_platforms_by_os (os_str o)
      | SVOp NOT => set_minus (set_of all_platforms) (eval_node l)
      | SVOp AND => set_inter (eval_node l) (eval_node r)
      | SVOp OR => set_union (eval_node l) (eval_node r)
      | SVText _ => set_of []
      end
  end.
(** selector_parser.py 181-212 [get_selected_platforms] *)
Definition get_selected_platforms (s : selector) : platset := eval_node (s_root s).
(** selector_query.py 10-15 [SelectorQuery] *)
Definition selector_query := option platform.
(** selector_parser.py 214-228 [does_selector_apply] *)
Definition does_selector_apply (s : selector) (q : selector_query) : bool :=
  match q with
  | Some p => get_selected_platforms s p
  | None => true
  end.
(** selector_parser.py 230-242 [render] *)
Definition selector_render (s : selector) : str :=
  match s_schema s with
  | SV0 => $"[" ++ strip (s_content s) ++ $"]"
  | SV1 => s_content s
  end.
