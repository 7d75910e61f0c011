(** An executable YAML subset used only to run the model on concrete inputs (examples, refutation witnesses and the
    comparison with the repository's test fixtures).  It is not a model of PyYAML and no general theorem depends
    on it: theorems quantify over every [env]. *)
From Verif Require Export Reader.

(** Remove a trailing comment: a '#' preceded by white space (or at the start), outside quotes. *)
Fixpoint strip_comment (q : option ascii) (prev_ws : bool) (s : str) : str :=
  match s with
  | [] => []
  | c :: s' =>
      match q with
      | Some qc => c :: strip_comment (if ceq c qc then None else q) false s'
      | None =>
          if ceq c cHASH && prev_ws then []
          else if is_quote c && prev_ws then c :: strip_comment (Some c) false s'
          else c :: strip_comment None (is_space c) s'
      end
  end.

(** Position of the mapping colon: the first ": " or a final ":" outside quotes. *)
Fixpoint colon_pos (q : option ascii) (start : bool) (i : nat) (s : str) : option nat :=
  match s with
  | [] => None
  | c :: s' =>
      match q with
      | Some qc => colon_pos (if ceq c qc then None else q) false (S i) s'
      | None =>
          if start && is_quote c then colon_pos (Some c) false (S i) s'
          else if ceq c ":"%char && match s' with [] => true | d :: _ => is_space d end then Some i
          else colon_pos None (is_space c) (S i) s'
      end
  end.

Fixpoint undq (s : str) : option str :=
  match s with
  | [] => None
  | c :: s' =>
      if ceq c cDQ then match s' with [] => Some [] | _ => None end
      else if ceq c cBS then
        match s' with
        | d :: s'' =>
            let r := undq s'' in
            if ceq d "n"%char then option_map (cons cNL) r
            else if ceq d "t"%char then option_map (cons (ch 9)) r
            else if ceq d cDQ || ceq d cBS then option_map (cons d) r
            else None
        | [] => None
        end
      else option_map (cons c) (undq s')
  end.
Fixpoint unsq (s : str) : option str :=
  match s with
  | [] => None
  | c :: s' =>
      if ceq c cSQ then
        match s' with
        | [] => Some []
        | d :: s'' => if ceq d cSQ then option_map (cons cSQ) (unsq s'') else None
        end
      else option_map (cons c) (unsq s')
  end.

Definition strip_zeros (s : str) : str :=
  let r := rev s in
  let fix go (r : str) := match r with
                          | c :: r' => if ceq c "0"%char then
                                         match r' with
                                         | d :: _ => if ceq d "."%char then r else go r'
                                         | [] => r
                                         end
                                       else r
                          | [] => []
                          end in rev (go r).
Definition int_Z (s : str) : Z := fold_left (fun a c => 10 * a + Z.of_nat (digit_val c))%Z s 0%Z.
(** plain scalar resolution (YAML 1.1 core cases) *)
Definition plain (s : str) : json :=
  if mem_str s [$"null"; $"Null"; $"NULL"; $"~"; $""] then JNull
  else if mem_str s [$"true"; $"True"; $"TRUE"; $"yes"; $"Yes"; $"YES"; $"on"; $"On"] then JBool true
  else if mem_str s [$"false"; $"False"; $"FALSE"; $"no"; $"No"; $"NO"; $"off"; $"Off"] then JBool false
  else if isdigit s then JInt (int_Z s)
  else match s with
       | c :: s' =>
           if ceq c "-"%char && isdigit s' then JInt (- int_Z s')
           else match split_on "."%char s with
                | [a; b] => if isdigit a && isdigit b then JFloat (strip_zeros s) else JStr s
                | _ => JStr s
                end
       | [] => JNull
       end.

Definition scalar (s : str) : yres :=
  match s with
  | [] => YOk JNull
  | c :: s' =>
      if ceq c cDQ then match undq s' with Some t => YOk (JStr t) | None => YScan end
      else if ceq c cSQ then match unsq s' with Some t => YOk (JStr t) | None => YScan end
      else if str_eqb s $"[]" then YOk (JList [])
      else if str_eqb s $"{}" then YOk (JDict [])
      else if ceq c cLB then
        match rev s' with
        | e :: mid => if ceq e cRB then YOk (JList (map (fun t => plain (strip t)) (split_on ","%char (rev mid)))) else YFail
        | [] => YFail
        end
      else if existsb (ceq c) (lit "*&!%@`") then YScan
      else if existsb (ceq c) (lit "{}],") then YFail
      else if existsb (ceq c) (lit "|>") then YOk (JStr [])
      else match colon_pos None true 0 s with
           | Some _ => YScan
           | None => YOk (plain s)
           end
  end.

Definition yline := (nat * str)%type.
Definition is_dash (s : str) : bool := str_eqb s $"-" || starts_with $"- " s.

Definition key_of (s : str) : option prim :=
  match scalar s with YOk (JP p) => Some p | _ => None end.

(** A key that is already there gets the later value. *)
Fixpoint put_key (k : prim) (j : json) (d : list (prim * json)) : list (prim * json) :=
  match d with
  | [] => [(k, j)]
  | (k', v) :: d' => if prim_eqb k k' then (k', j) :: d' else (k', v) :: put_key k j d'
  end.
(** Block parser; returns the value and the remaining lines. *)
Fixpoint block (fuel : nat) (ls : list yline) : option (yres * list yline) :=
  match fuel with
  | 0 => None
  | S f =>
      match ls with
      | [] => Some (YOk JNull, [])
      | (n, s) :: ls' =>
          if is_dash s then
            (* sequence *)
            let fix items (g : nat) (ls : list yline) (acc : list json) : option (yres * list yline) :=
              match g with
              | 0 => None
              | S g' =>
                  match ls with
                  | (n', s') :: rest' =>
                      if (n' =? n) && is_dash s' then
                        let body := lstrip (skipn 1 s') in
                        let off := n + (length s' - length body) in
                        let inner := if is_nil body
                                     then match rest' with
                                          | (k, _) :: _ => if n <? k then block f rest' else Some (YOk JNull, rest')
                                          | [] => Some (YOk JNull, [])
                                          end
                                     else block f ((off, body) :: rest') in
                        match inner with
                        | Some (YOk j, rest'') => items g' rest'' (acc ++ [j])
                        | o => o
                        end
                      else if n' <? n then Some (YOk (JList acc), ls)
                      else if n' =? n then Some (YOk (JList acc), ls)
                      else Some (YFail, [])
                  | [] => Some (YOk (JList acc), [])
                  end
              end in
            items f ls []
          else
            match colon_pos None true 0 s with
            | Some _ =>
                let fix entries (g : nat) (ls : list yline) (acc : list (prim * json)) : option (yres * list yline) :=
                  match g with
                  | 0 => None
                  | S g' =>
                      match ls with
                      | (n', s') :: rest' =>
                          if n' =? n then
                            match (if is_dash s' then None else colon_pos None true 0 s') with
                            | None => if is_dash s' then Some (YOk (JDict acc), ls) else Some (YFail, [])
                            | Some i =>
                                match key_of (strip (firstn i s')) with
                                | None => Some (YFail, [])
                                | Some k =>
                                    let v := strip (skipn (S i) s') in
                                    if is_nil v then
                                      match rest' with
                                      | (n'', s'') :: _ =>
                                          if (n <? n'') || ((n'' =? n) && is_dash s'') then
                                            match block f rest' with
                                            | Some (YOk j, rest'') => entries g' rest'' (put_key k j acc)
                                            | o => o
                                            end
                                          else entries g' rest' (put_key k JNull acc)
                                      | [] => entries g' rest' (put_key k JNull acc)
                                      end
                                    else
                                      if is_dash v then Some (YScan, [])
                                      else match scalar v with
                                           | YOk j => match rest' with
                                                      | (n'', _) :: _ => if n <? n'' then Some (YFail, [])
                                                                         else entries g' rest' (put_key k j acc)
                                                      | [] => entries g' rest' (put_key k j acc)
                                                      end
                                           | e => Some (e, [])
                                           end
                                end
                            end
                          else if n' <? n then Some (YOk (JDict acc), ls)
                          else Some (YFail, [])
                      | [] => Some (YOk (JDict acc), [])
                      end
                  end in
                entries f ls []
            | None => Some (scalar s, ls')
            end
      end
  end.

Definition prep (s : str) : list yline :=
  flat_map (fun l => let c := rstrip (strip_comment None true l) in
                     if is_nil (strip c) then [] else [(num_tab_spaces c, strip c)])
           (splitlines s).

(** "|" and ">" documents as produced by [normalize_multiline_strings]; folding joins with spaces. *)
Definition block_scalar (s : str) : option json :=
  match splitlines s with
  | h :: ls =>
      let body := map (fun l => skipn 2 l) ls in
      let last := match rev s with c :: _ => if ceq c cNL then NLs else [] | [] => [] end in
      if str_eqb h $"|" then Some (JStr (join NLs body ++ last))
      else if str_eqb h $"|-" then Some (JStr (join NLs body))
      else if str_eqb h $">" then Some (JStr (join [cSP] body ++ last))
      else if str_eqb h $">-" then Some (JStr (join [cSP] body))
      else None
  | [] => None
  end.

Definition mini_load (s : str) : yres :=
  match block_scalar s with
  | Some j => YOk j
  | None =>
      let ls := prep s in
      match block (2 * length s + 5) ls with
      | Some (YOk j, []) => YOk j
      | Some (YOk _, _) => YFail
      | Some (e, _) => e
      | None => YFail
      end
  end.

(** yaml.dump in block style; a string that would be read differently is written in single quotes *)
Definition dump_str (s : str) : str :=
  let quoted := cSQ :: flat_map (fun c => if ceq c cSQ then [cSQ; cSQ] else [c]) s ++ [cSQ] in
  if contains_sub $" #" s || starts_with $"#" s || contains_sub $": " s || starts_with $"- " s then quoted
  else match scalar s with YOk (JStr t) => if str_eqb s t then s else quoted | _ => quoted end.
Definition dump_prim (p : prim) : str :=
  match p with
  | PNull => $"null" | PBool true => $"true" | PBool false => $"false"
  | PInt z => str_of_Z z | PFloat r => r | PStr s => dump_str s
  end.
Fixpoint dump_lines (j : json) : list str :=
  match j with
  | JP p => [dump_prim p]
  | JList [] => [$"[]"]
  | JDict [] => [$"{}"]
  | JList l =>
      flat_map (fun x => match dump_lines x with
                         | [] => []
                         | h :: t => ($"- " ++ h) :: map (fun s => TAB ++ s) t
                         end) l
  | JDict d =>
      flat_map (fun kv => let '(k, x) := kv in
                          match x with
                          | JP _ | JList [] | JDict [] => [dump_prim k ++ $": " ++ join NLs (dump_lines x)]
                          | _ => (dump_prim k ++ $":") :: map (fun s => TAB ++ s) (dump_lines x)
                          end) d
  end.
Definition mini_dump (j : json) : str := join NLs (dump_lines j) ++ NLs.

(** ast.literal_eval on simple literals *)
Definition mini_lit (s : str) : option json :=
  match s with
  | c :: s' =>
      if ceq c cDQ then option_map (fun t => JStr t) (undq s')
      else if ceq c cSQ then option_map (fun t => JStr t) (unsq s')
      else if isdigit s then Some (JInt (int_Z s))
      else if str_eqb s $"True" then Some (JBool true)
      else if str_eqb s $"False" then Some (JBool false)
      else if str_eqb s $"None" then Some JNull
      else match split_on "."%char s with
           | [a; b] => if isdigit a && isdigit b then Some (JFloat (strip_zeros s)) else None
           | _ => None
           end
  | [] => None
  end.

Definition mini_env : env :=
  {| yload := mini_load; ydump := mini_dump; lit_eval := mini_lit;
     to_float := fun s => match split_on "."%char s with
                          | [a; b] => if isdigit a && isdigit b then Some (strip_zeros s) else None
                          | _ => None
                          end;
     num_add := fun _ _ => $"0.0"; rec_limit := 100;
     sent_str := $"<conda_recipe_manager.types.SentinelType object at 0x7f0000000000>" |}.
