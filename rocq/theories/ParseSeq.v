(** Model of src/config/ParseKeySequence.cpp and get_key_by_name of
    src/config/get_key_name.cpp. *)
From Coq Require Import String Ascii List NArith ZArith Bool.
From Verif Require Import Base Key KeyNames Text Match.
Import ListNotations.
Open Scope N_scope.

(** * get_key_by_name *)

Definition hex_value (c : ascii) : option Z :=
  if is_digit c then Some (digit_value c)
  else if in_codes 97 102 c then Some (Z.of_N (code c) - 87)%Z
  else if in_codes 65 70 c then Some (Z.of_N (code c) - 55)%Z
  else None.

Fixpoint read_base (base : Z) (t : text) (n : Z) : option Z :=
  match t with
  | [] => Some n
  | c :: r => match hex_value c with
              | Some d => if (d <? base)%Z then read_base base r (n * base + d)%Z else None
              | None => None
              end
  end.

(** get_key_name.cpp:11-22 try_parse_key_code: the whole name has to be a number in
    C notation (0x.. hexadecimal, 0.. octal, decimal) between 1 and 0xEFFF. *)
Definition try_parse_key_code (name : text) : key :=
  match name with
  | c :: d :: r =>
      if is_digit c then
        let n :=
          if code c =? 48 then
            if (code d =? 120) || (code d =? 88)
            then match r with [] => None | _ => read_base 16 r 0 end
            else read_base 8 (d :: r) 0
          else read_base 10 name 0 in
        match n with
        | Some z => if (0 <? z)%Z && (z <? 0xF000)%Z then Z.to_N z else k_none
        | None => k_none
        end
      else k_none
  | _ => k_none
  end.

(** get_key_name.cpp:229-236 remove_prefix *)
Definition remove_prefix (p : string) (name : text) : option text :=
  match skip (T p) name with
  | Some [] => None
  | r => r
  end.

(** std::atoi as implemented by glibc: strtol (leading white space, optional sign,
    clamped to 64 bits) truncated to 32 bits. *)
Fixpoint atoi_digits (t : text) (n : Z) : Z :=
  match t with
  | c :: r => if is_digit c then atoi_digits r (n * 10 + digit_value c)%Z else n
  | [] => n
  end.
Definition wrap32 (z : Z) : Z := ((z + 2 ^ 31) mod 2 ^ 32 - 2 ^ 31)%Z.
Definition clamp64 (z : Z) : Z := Z.max (- 2 ^ 63) (Z.min (2 ^ 63 - 1) z).
Definition atoi (t : text) : Z :=
  let t := drop_space t in
  wrap32 (clamp64
    match t with
    | c :: r => if code c =? 45 then (- atoi_digits r 0)%Z
                else if code c =? 43 then atoi_digits r 0
                else atoi_digits t 0
    | [] => 0%Z
    end).

Fixpoint lookup_name (name : text) (l : list (string * key)) : key :=
  match l with
  | [] => k_none
  | (n, k) :: r => if text_eqb name (T n) then k else lookup_name name r
  end.

(** get_key_name.cpp:281-303; the sorted table and binary search are modelled as
    lookup by name. *)
Definition lookup_common (name : text) : key :=
  match lookup_name name key_names with
  | 0 => lookup_name name [("Shift", first_logical); ("Control", first_logical + 1);
                           ("Alt", first_logical + 2); ("Meta", first_logical + 3);
                           ("OSLeft", MetaLeft); ("OSRight", MetaRight)]%string
  | k => k
  end.

(** get_key_name.cpp:250-303 *)
Definition lookup_prefixed (name : text) : key :=
  match remove_prefix "Key" name with
  | Some ([c] as n) => if in_codes 65 90 c then lookup_common n else k_none
  | Some _ => k_none
  | None =>
      match remove_prefix "Digit" name with
      | Some ([c] as n) => if is_digit c then lookup_common n else k_none
      | Some _ => k_none
      | None => lookup_common name
      end
  end.

(** get_key_name.cpp:238-304 *)
Definition get_key_by_name (name : text) : key :=
  if text_eqb name (T "Any") then k_any
  else
    match try_parse_key_code name with
    | 0 =>
        match remove_prefix "Virtual" name with
        | Some n =>
            let v := atoi n in
            if (0 <=? v)%Z && (v <=? 255)%Z then first_virtual + Z.to_N v
            else lookup_prefixed n
        | None => lookup_prefixed name
        end
    | k => k
    end.

(** * ParseKeySequence *)

(** Outcome: a value, a thrown ParseError, undefined behaviour (signed overflow in
    try_read_number) or out of fuel (excluded by theorem). *)
Inductive pres (A : Type) : Type := POk (a : A) | PErr | PUB | PFuel.
Arguments POk {A}. Arguments PErr {A}. Arguments PUB {A}. Arguments PFuel {A}.

(** The members of ParseKeySequence (ParseKeySequence.h:73-81) plus the local flags
    of parse (ParseKeySequence.cpp:284-288) and the terminal commands passed to
    m_add_terminal_command. *)
Record pstate : Type := PS {
  p_pressed : list key;
  p_buffer : list key;
  p_before : list nat;      (* m_keys_pressed_before_modifier_group, last first *)
  p_seq : sequence;
  p_cmds : list text;
  p_nmm : bool;             (* is_no_might_match *)
  p_onrel : bool;           (* output_on_release *)
  p_together : bool;        (* in_together_group *)
  p_modified : nat;         (* in_modified_group *)
  p_hasmod : bool           (* has_modifier *)
}.
Definition p_init : pstate := PS [] [] [] [] [] false false false 0 false.

Definition p_set_pressed x p := PS x (p_buffer p) (p_before p) (p_seq p) (p_cmds p) (p_nmm p) (p_onrel p) (p_together p) (p_modified p) (p_hasmod p).
Definition p_set_buffer x p := PS (p_pressed p) x (p_before p) (p_seq p) (p_cmds p) (p_nmm p) (p_onrel p) (p_together p) (p_modified p) (p_hasmod p).
Definition p_set_before x p := PS (p_pressed p) (p_buffer p) x (p_seq p) (p_cmds p) (p_nmm p) (p_onrel p) (p_together p) (p_modified p) (p_hasmod p).
Definition p_set_seq x p := PS (p_pressed p) (p_buffer p) (p_before p) x (p_cmds p) (p_nmm p) (p_onrel p) (p_together p) (p_modified p) (p_hasmod p).
Definition p_set_cmds x p := PS (p_pressed p) (p_buffer p) (p_before p) (p_seq p) x (p_nmm p) (p_onrel p) (p_together p) (p_modified p) (p_hasmod p).
Definition p_set_nmm x p := PS (p_pressed p) (p_buffer p) (p_before p) (p_seq p) (p_cmds p) x (p_onrel p) (p_together p) (p_modified p) (p_hasmod p).
Definition p_set_onrel x p := PS (p_pressed p) (p_buffer p) (p_before p) (p_seq p) (p_cmds p) (p_nmm p) x (p_together p) (p_modified p) (p_hasmod p).
Definition p_set_together x p := PS (p_pressed p) (p_buffer p) (p_before p) (p_seq p) (p_cmds p) (p_nmm p) (p_onrel p) x (p_modified p) (p_hasmod p).
Definition p_set_modified x p := PS (p_pressed p) (p_buffer p) (p_before p) (p_seq p) (p_cmds p) (p_nmm p) (p_onrel p) (p_together p) x (p_hasmod p).
Definition p_set_hasmod x p := PS (p_pressed p) (p_buffer p) (p_before p) (p_seq p) (p_cmds p) (p_nmm p) (p_onrel p) (p_together p) (p_modified p) x.

(** ParseKeySequence.cpp:67-69 add_key_to_sequence *)
Definition add_event (e : event) (p : pstate) : pstate := p_set_seq (p_seq p ++ [e]) p.

(** ParseKeySequence.cpp:7-12 has_key_down *)
Definition has_key_down (l : sequence) : bool :=
  existsb (fun e => kstate_eqb (es e) Down && negb (ek e =? k_timeout)) l.

(** ParseKeySequence.cpp:14-16 *)
Definition ends_with_async_up (l : sequence) (k : key) : bool :=
  match back l with Some e => event_eqb e (ev0 k UpAsync) | None => false end.

(** ParseKeySequence.cpp:18-22 *)
Definition is_pressed (l : sequence) (k : key) : bool :=
  match rfind_index (fun e => ek e =? k) l with
  | Some i => match nth_error l i with
              | Some e => negb (kstate_eqb (es e) Up)
              | None => false
              end
  | None => false
  end.

(** ParseKeySequence.cpp:24-29 *)
Definition has_virtual_key (l : sequence) : bool := existsb (fun e => is_virtual_key (ek e)) l.

(** ParseKeySequence.cpp:75-81 remove_from_pressed_keys *)
Definition remove_from_pressed (k : key) (p : pstate) : pstate * bool :=
  (p_set_pressed (remove_key k (p_pressed p)) p, mem_key k (p_pressed p)).

(** ParseKeySequence.cpp:83-103 flush_key_buffer *)
Definition flush_key_buffer (is_input up_immediately : bool) (p : pstate) : pstate :=
  let b := p_buffer p in
  let p := p_set_seq (p_seq p ++ map (fun k => ev0 k Down) b) p in
  let p :=
    if up_immediately then
      if is_input then p_set_seq (p_seq p ++ map (fun k => ev0 k UpAsync) b) p
      else p_set_pressed (fold_left (fun l k => remove_key k l) b (p_pressed p))
             (p_set_seq (p_seq p ++ map (fun k => ev0 k Up) b) p)
    else p_set_pressed (p_pressed p ++ b) p in
  p_set_buffer [] p.

(** ParseKeySequence.cpp:105-111 release_pressed_keys *)
Definition release_pressed_keys (is_input : bool) (keep : nat) (p : pstate) : pstate :=
  let rel := rev (skipn keep (p_pressed p)) in
  p_set_pressed (firstn keep (p_pressed p))
    (p_set_seq (p_seq p ++ map (fun k => ev0 k (if is_input then UpAsync else Up)) rel) p).

(** ParseKeySequence.cpp:113-126 sync_after_not_timeout: scan the reversed sequence
    over UpAsyncs until a not-timeout; returns the keys of the scanned UpAsyncs. *)
Fixpoint scan_not_timeout (rl : sequence) (acc : list key) : list key :=
  match rl with
  | [] => []
  | e :: r =>
      if (ek e =? k_timeout) && is_not_timeout (es e) then acc
      else if kstate_eqb (es e) UpAsync then scan_not_timeout r (ek e :: acc)
      else []
  end.
Definition sync_after_not_timeout (p : pstate) : pstate :=
  p_set_seq (p_seq p ++ map (fun k => ev0 k Up) (scan_not_timeout (rev (p_seq p)) [])) p.

(** ParseKeySequence.cpp:128-134 all_pressed_at_once: no Down after an Up *)
Fixpoint no_down_after_up (seen_up : bool) (l : sequence) : bool :=
  match l with
  | [] => true
  | e :: r =>
      match es e with
      | Up => no_down_after_up true r
      | Down => if seen_up then false else no_down_after_up seen_up r
      | _ => no_down_after_up seen_up r
      end
  end.
Definition all_pressed_at_once (l : sequence) : bool := no_down_after_up false l.

(** ParseKeySequence.cpp:136-140 remove_all_from_end *)
Fixpoint drop_state (st : kstate) (l : sequence) : sequence :=
  match l with
  | e :: r => if kstate_eqb (es e) st then drop_state st r else l
  | [] => []
  end.
Definition remove_all_from_end (st : kstate) (l : sequence) : sequence :=
  rev (drop_state st (rev l)).

(** ParseKeySequence.cpp:155-178 add_timeout_event *)
Definition add_timeout_event (is_input : bool) (timeout : N) (is_not cancel_on_up : bool)
           (p : pstate) : pres pstate :=
  let p := flush_key_buffer is_input true p in
  if is_input && negb (has_key_down (p_seq p)) then PErr
  else if negb is_input && is_not then PErr
  else
    let st := if negb is_input then Down
              else if is_not then (if cancel_on_up then NotTimeoutUpDown else Not)
              else (if cancel_on_up then Up else Down) in
    match back (p_seq p) with
    | Some e =>
        if (ek e =? k_timeout) && kstate_eqb (es e) st
        then POk (p_set_seq (pop_back (p_seq p)
                             ++ [Ev k_timeout st (sum_timeouts (ev e) timeout)]) p)
        else POk (add_event (Ev k_timeout st timeout) p)
    | None => POk (add_event (Ev k_timeout st timeout) p)
    end.

(** Timeout.h:34-42 try_read_timeout *)
Inductive tmo : Type := TNo | TYes (v : N) (it : text) | TUB.
Definition try_read_timeout (it : text) : tmo :=
  match try_read_number it with
  | None => TNo
  | Some (n, ub, r) =>
      if ub then TUB
      else match skip (T "ms") r with
           | Some q => TYes (duration_to_timeout n) q
           | None => TNo
           end
  end.

(** StringTyper.h:10-17: the key strokes for a string: key, modifier bits, value. *)
Record stroke : Type := Stroke { st_key : key; st_mods : N; st_value : N }.
Definition mod_keys : list (N * key) :=
  [(1, first_logical); (2, AltLeft); (4, AltRight); (8, first_logical + 1)].
Definition has_bits (m mods : N) : bool := negb (N.land mods m =? 0).

(** ParseKeySequence.cpp:193-213 (one typed key of an input string) *)
Definition type_input_mod (mods prev : N) (first : bool) (mk : N * key) : sequence :=
  let '(m, k) := mk in
  if has_bits m mods then
    (if has_bits m prev then [ev0 k UpAsync] else []) ++ [ev0 k DownAsync; ev0 k Down]
  else
    (if first then [ev0 k Not] else [])
    ++ (if xorb (has_bits m mods) (has_bits m prev) then [ev0 k Up] else []).

Fixpoint type_input (in_group : bool) (l : list stroke) (prev : N) (first : bool)
  : sequence * N :=
  match l with
  | [] => ([], prev)
  | x :: r =>
      let ms := if in_group then []
                else flat_map (type_input_mod (st_mods x) prev first) mod_keys in
      let '(rest, p) := type_input in_group r (st_mods x) false in
      (ms ++ [ev0 (st_key x) Down; ev0 (st_key x) UpAsync] ++ rest, p)
  end.

Definition release_mods (s : kstate) (prev : N) : sequence :=
  flat_map (fun mk : N * key => if has_bits (fst mk) prev then [ev0 (snd mk) s] else []) mod_keys.

Definition strokes_have_modifier (l : list stroke) : bool :=
  existsb (fun x => negb (st_mods x =? 0)) l.

(** ParseKeySequence.cpp:186-232 add_string_typing_input *)
Definition string_input (in_group : bool) (l : list stroke) : sequence :=
  let '(sq, prev) := type_input in_group l 0 true in sq ++ release_mods UpAsync prev.

(** ParseKeySequence.cpp:241-257 *)
Definition type_output_mod (mods prev : N) (mk : N * key) : sequence :=
  let '(m, k) := mk in
  if xorb (has_bits m mods) (has_bits m prev)
  then [ev0 k (if has_bits m mods then Down else Up)] else [].

Fixpoint type_output (l : list stroke) (prev : N) : sequence * N :=
  match l with
  | [] => ([], prev)
  | x :: r =>
      let ms := flat_map (type_output_mod (st_mods x) prev) mod_keys in
      let '(rest, p) := type_output r (st_mods x) in
      (ms ++ [Ev (st_key x) Down (st_value x); Ev (st_key x) Up (st_value x)] ++ rest, p)
  end.

(** ParseKeySequence.cpp:234-269 add_string_typing_output *)
Definition string_output (in_group : bool) (l : list stroke) : sequence :=
  let '(sq, prev) := type_output l 0 in
  (if in_group then [] else [ev0 k_any Not]) ++ sq ++ release_mods Up prev.

(** ParseKeySequence.cpp:347-354: the text of a terminal command up to the matching
    parenthesis; None = end of the string reached. *)
Fixpoint read_command (level : nat) (it : text) : option (text * text) :=
  match it with
  | [] => None
  | c :: r =>
      let level' := if code c =? 40 then S level
                    else if code c =? 41 then Nat.pred level else level in
      match level' with
      | O => Some ([], r)
      | _ => match read_command level' r with
             | Some (t, q) => Some (c :: t, q)
             | None => None
             end
      end
  end.

Section Parser.
Variable is_input : bool.
(** m_get_key_by_name *)
Variable get_key : text -> key.
(** string_typer().type *)
Variable typer : text -> list stroke.
(** m_add_terminal_command: None when not set, else the key for the n-th command. *)
Variable command_key : option (nat -> key).

(** ParseKeySequence.cpp:142-153 read_key *)
Definition read_key (it : text) : pres (key * text) :=
  let '(name, r) := read_ident it in
  match name with
  | [] => PErr
  | _ => match get_key name with 0 => PErr | k => POk (k, r) end
  end.

(** ParseKeySequence.cpp:303-322, `!Key` *)
Definition parse_not_key (k : key) (p : pstate) : pres pstate :=
  if is_input && Nat.ltb 0 (p_modified p) && negb (mem_key k (p_buffer p)) then PErr
  else
    let p := flush_key_buffer is_input is_input p in
    let '(p, removed) := remove_from_pressed k p in
    let p := if removed && is_input then add_event (ev0 k UpAsync) p else p in
    if is_input && ends_with_async_up (p_seq p) k
    then POk (p_set_seq (pop_back (p_seq p) ++ [ev0 k Up]) p)
    else if is_input && is_pressed (p_seq p) k then POk (add_event (ev0 k Up) p)
    else POk (add_event (ev0 k Not) p).

(** Result of one iteration of the loop: continue at an iterator, or break. *)
Inductive pstep : Type := Continue (it : text) (p : pstate) | Break (p : pstate).

Definition lift (it : text) (r : pres pstate) : pres pstep :=
  match r with POk p => POk (Continue it p) | PErr => PErr | PUB => PUB | PFuel => PFuel end.

(** ParseKeySequence.cpp:324-340 a string *)
Definition parse_string (q : ascii) (r : text) (p : pstate) : pres pstep :=
  if p_together p then PErr
  else match skip_until [q] r with
       | None => PErr
       | Some it =>
           let p := flush_key_buffer is_input true p in
           let str := removelast (before r it) in
           let sq := typer str in
           let in_group := Nat.ltb 0 (p_modified p) in
           let p := p_set_seq (p_seq p ++ (if is_input then string_input in_group sq
                                           else string_output in_group sq)) p in
           POk (Continue it (p_set_hasmod (p_hasmod p || strokes_have_modifier sq) p))
       end.

(** ParseKeySequence.cpp:341-360 a terminal command *)
Definition parse_command (r : text) (p : pstate) : pres pstep :=
  if is_input || p_together p || Nat.ltb 0 (p_modified p) then PErr
  else match skip (T "(") r with
       | None => PErr
       | Some r =>
           match read_command 1 r with
           | None => PErr
           | Some (t, it) =>
               let p := flush_key_buffer is_input true p in
               match command_key with
               | None => POk (Continue it p)
               | Some f =>
                   POk (Continue it (p_set_cmds (p_cmds p ++ [t])
                         (add_event (ev0 (f (length (p_cmds p))) Down) p)))
               end
           end
       end.

(** The loop body, ParseKeySequence.cpp:290-442; [it] after skip_space. *)
Definition parse_step (it : text) (p : pstate) : pres pstep :=
  let in_mod := Nat.ltb 0 (p_modified p) in
  let otherwise (it : text) : pres pstep :=
    match try_read_timeout it with
    | TUB => PUB
    | TYes v r =>
        if p_together p then PErr
        else if p_nmm p then PErr
        else lift r (add_timeout_event is_input v false in_mod p)
    | TNo =>
        match it with
        | [] => POk (Break (flush_key_buffer is_input true p))
        | _ =>
            let p := if p_together p then p else flush_key_buffer is_input true p in
            match read_key it with
            | POk (k, r) => POk (Continue r (p_set_buffer (p_buffer p ++ [k]) p))
            | PErr => PErr | PUB => PUB | PFuel => PFuel
            end
        end
    end in
  match it with
  | [] => otherwise it
  | c :: r =>
      if Ascii.eqb c "!"%char then
        match try_read_timeout r with
        | TUB => PUB
        | TYes v r' =>
            if p_together p then PErr
            else lift r' (add_timeout_event is_input v true in_mod p)
        | TNo =>
            if p_together p then PErr
            else match read_key r with
                 | POk (k, r') => lift r' (parse_not_key k p)
                 | PErr => PErr | PUB => PUB | PFuel => PFuel
                 end
        end
      else if is_quote c then parse_string c r p
      else if Ascii.eqb c "$"%char then parse_command r p
      else if Ascii.eqb c "^"%char then
        if is_input || p_onrel p || p_together p || in_mod then PErr
        else POk (Continue r (p_set_onrel true
               (add_event (ev0 k_none OutputOnRelease) (flush_key_buffer is_input true p))))
      else if Ascii.eqb c "?"%char then
        if negb is_input || p_onrel p
           || negb (match p_seq p with [] => true | _ => false end)
           || negb (match p_buffer p with [] => true | _ => false end)
           || p_together p then PErr
        else POk (Continue r (p_set_nmm true (add_event (ev0 k_none NoMightMatch) p)))
      else if Ascii.eqb c "("%char then
        if p_together p then PErr
        else POk (Continue r (p_set_together true (flush_key_buffer is_input true p)))
      else if Ascii.eqb c ")"%char then
        if negb (p_together p) then PErr
        else
          let p := if is_input
                   then p_set_seq (p_seq p ++ map (fun k => ev0 k DownAsync) (p_buffer p)) p
                   else p in
          POk (Continue r (p_set_together false p))
      else if Ascii.eqb c "{"%char then
        if p_together p then PErr
        else
          let p := p_set_before (length (p_pressed p) :: p_before p) p in
          let p := flush_key_buffer is_input false p in
          match p_pressed p with
          | [] => PErr
          | _ => POk (Continue r (p_set_hasmod true (p_set_modified (S (p_modified p)) p)))
          end
      else if Ascii.eqb c "}"%char then
        match p_modified p, p_before p with
        | S m, b :: bs =>
            let p := flush_key_buffer is_input true p in
            let p := release_pressed_keys is_input b p in
            let p := p_set_modified m (p_set_before bs p) in
            POk (Continue r (if is_input then sync_after_not_timeout p else p))
        | _, _ => PErr
        end
      else if is_comment_char c then POk (Break (flush_key_buffer is_input true p))
      else otherwise it
  end.

Fixpoint parse_loop (fuel : nat) (it : text) (p : pstate) : pres pstate :=
  match fuel with
  | O => PFuel
  | S f =>
      match parse_step (skip_space it) p with
      | POk (Continue it' p') => parse_loop f it' p'
      | POk (Break p') => POk p'
      | PErr => PErr | PUB => PUB | PFuel => PFuel
      end
  end.

(** ParseKeySequence.cpp:271-281 check_ContextActive_usage *)
Definition check_context_active (l : sequence) : pres sequence :=
  if existsb (fun e => ek e =? k_ContextActive) l then
    if negb is_input then PErr
    else if negb (Nat.eqb (length l) 2) then PErr
    else POk (pop_back l)
  else POk l.

(** ParseKeySequence.cpp:445-466, the end of parse *)
Definition parse_end (p : pstate) : pres sequence :=
  if p_together p then PErr
  else if Nat.ltb 0 (p_modified p) then PErr
  else
    let p :=
      if is_input then
        if p_nmm p then p_set_seq (remove_all_from_end UpAsync (p_seq p)) p else p
      else
        let p := release_pressed_keys is_input 0 p in
        if negb (p_hasmod p) && all_pressed_at_once (p_seq p)
        then p_set_seq (remove_all_from_end Up (p_seq p)) p else p in
    if is_input && negb (has_key_down (p_seq p)) then PErr
    else if p_nmm p && has_virtual_key (p_seq p) then PErr
    else check_context_active (p_seq p).

(** ParseKeySequence.cpp:32-65, 283-466: the sequence and the terminal commands. *)
Definition parse_sequence (str : text) : pres (sequence * list text) :=
  match parse_loop (S (length str)) str p_init with
  | POk p => match parse_end p with
             | POk l => POk (l, p_cmds p)
             | PErr => PErr | PUB => PUB | PFuel => PFuel
             end
  | PErr => PErr | PUB => PUB | PFuel => PFuel
  end.

End Parser.
