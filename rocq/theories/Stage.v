(** Model of src/runtime/Stage.cpp and src/runtime/Stage.h. *)
From Coq Require Import List Arith NArith ZArith Bool.
From Verif Require Import Base Key Match.
Import ListNotations.
Open Scope N_scope.

(** * Configuration *)

(** Stage.h:17-21 Stage::Input; a non-negative output_index addresses a direct
    output, a negative one a command. *)
Record input : Type := Inp { in_seq : sequence; in_out : Z }.

(** Stage.h:23-26 Stage::CommandOutput *)
Record command : Type := Cmd { cm_out : sequence; cm_idx : Z }.

(** Stage.h:28-38 Stage::Context.  The two device filters are kept as the
    predicates they compute on a device's name and id (Filter.h:9-26, None = filter
    string empty); regular expressions are not modelled further. *)
Record context : Type := Ctx {
  cx_inputs : list input;
  cx_outputs : list sequence;
  cx_commands : list command;
  cx_devf : option (list N -> bool);    (* device_filter, on the device name *)
  cx_devidf : option (list N -> bool);  (* device_id_filter, on the device id *)
  cx_mods : sequence;
  cx_bits : N;                          (* matching_device_bits, uint64_t *)
  cx_inv : bool;
  cx_fall : bool
}.

Definition no_device : Z := (-1)%Z.     (* Stage.h:13 *)
Definition any_device : Z := (-2)%Z.    (* Stage.h:14 *)
Definition all_device_bits : N := 0xFFFFFFFFFFFFFFFF. (* Stage.h:15 *)

(** Stage.h:9 Trigger = variant<const KeySequence*, KeyEvent, Key>.  The pointer is
    never compared, so it is replaced by the sequence it points to. *)
Inductive trigger : Type :=
| TSeq (s : sequence)
| TEvent (e : event)
| TKey (k : key).

(** A `const KeySequence*` to an output, identified by where it is stored, so that
    pointer comparison (Stage.cpp:601) is comparison of references. *)
Inductive oref : Type :=
| ODirect (ctx idx : nat)
| OCommand (ctx idx : nat).

Definition oref_eqb (a b : oref) : bool :=
  match a, b with
  | ODirect c i, ODirect c' i' => Nat.eqb c c' && Nat.eqb i i'
  | OCommand c i, OCommand c' i' => Nat.eqb c c' && Nat.eqb i i'
  | _, _ => false
  end.

(** Stage.h:103-107.  The context index is None for the default argument -1. *)
Record on_release : Type := OnRel { or_trigger : key; or_seq : sequence; or_ctx : option nat }.

(** Stage.h:111-118 *)
Record out_down : Type := OD {
  od_key : key;
  od_trigger : trigger;
  od_suppressed : bool;
  od_temp : bool;
  od_twice : bool;
  od_ctx : option nat
}.

(** Stage.h:121-125 *)
Record cur_timeout : Type := CT {
  ct_event : event;
  ct_trigger : key;
  ct_output : option oref;
  ct_not_exceeded : bool
}.

(** The mutable members of Stage, Stage.h:84-131 (m_prev_active_contexts is only
    used inside update_active_contexts).  [s_ub]: some undefined behaviour happened;
    [s_oof]: a model loop ran out of fuel. *)
Record state : Type := St {
  s_client : list nat;               (* m_active_client_contexts *)
  s_active : list nat;               (* m_active_contexts *)
  s_exit : nat;                      (* m_exit_sequence_position *)
  s_seq : sequence;                  (* m_sequence *)
  s_might : bool;                    (* m_sequence_might_match *)
  s_pdev : Z;                        (* m_last_pressed_device_index *)
  s_rdev : Z;                        (* m_last_repeat_device_index *)
  s_hist : sequence;                 (* m_history *)
  s_onrel : list on_release;         (* m_output_on_release *)
  s_down : list out_down;            (* m_output_down *)
  s_timeout : option cur_timeout;    (* m_current_timeout *)
  s_buf : sequence;                  (* m_output_buffer *)
  s_reapplied : bool;                (* m_temporary_reapplied *)
  s_any : list key;                  (* m_any_key_matches *)
  s_ub : bool;
  s_oof : bool
}.

Definition init_state : state :=
  St [] [] 0 [] false no_device no_device [] [] [] None [] false [] false false.

Definition set_client x s := St x (s_active s) (s_exit s) (s_seq s) (s_might s) (s_pdev s) (s_rdev s) (s_hist s) (s_onrel s) (s_down s) (s_timeout s) (s_buf s) (s_reapplied s) (s_any s) (s_ub s) (s_oof s).
Definition set_active x s := St (s_client s) x (s_exit s) (s_seq s) (s_might s) (s_pdev s) (s_rdev s) (s_hist s) (s_onrel s) (s_down s) (s_timeout s) (s_buf s) (s_reapplied s) (s_any s) (s_ub s) (s_oof s).
Definition set_exit x s := St (s_client s) (s_active s) x (s_seq s) (s_might s) (s_pdev s) (s_rdev s) (s_hist s) (s_onrel s) (s_down s) (s_timeout s) (s_buf s) (s_reapplied s) (s_any s) (s_ub s) (s_oof s).
Definition set_seq x s := St (s_client s) (s_active s) (s_exit s) x (s_might s) (s_pdev s) (s_rdev s) (s_hist s) (s_onrel s) (s_down s) (s_timeout s) (s_buf s) (s_reapplied s) (s_any s) (s_ub s) (s_oof s).
Definition set_might x s := St (s_client s) (s_active s) (s_exit s) (s_seq s) x (s_pdev s) (s_rdev s) (s_hist s) (s_onrel s) (s_down s) (s_timeout s) (s_buf s) (s_reapplied s) (s_any s) (s_ub s) (s_oof s).
Definition set_pdev x s := St (s_client s) (s_active s) (s_exit s) (s_seq s) (s_might s) x (s_rdev s) (s_hist s) (s_onrel s) (s_down s) (s_timeout s) (s_buf s) (s_reapplied s) (s_any s) (s_ub s) (s_oof s).
Definition set_rdev x s := St (s_client s) (s_active s) (s_exit s) (s_seq s) (s_might s) (s_pdev s) x (s_hist s) (s_onrel s) (s_down s) (s_timeout s) (s_buf s) (s_reapplied s) (s_any s) (s_ub s) (s_oof s).
Definition set_hist x s := St (s_client s) (s_active s) (s_exit s) (s_seq s) (s_might s) (s_pdev s) (s_rdev s) x (s_onrel s) (s_down s) (s_timeout s) (s_buf s) (s_reapplied s) (s_any s) (s_ub s) (s_oof s).
Definition set_onrel x s := St (s_client s) (s_active s) (s_exit s) (s_seq s) (s_might s) (s_pdev s) (s_rdev s) (s_hist s) x (s_down s) (s_timeout s) (s_buf s) (s_reapplied s) (s_any s) (s_ub s) (s_oof s).
Definition set_down x s := St (s_client s) (s_active s) (s_exit s) (s_seq s) (s_might s) (s_pdev s) (s_rdev s) (s_hist s) (s_onrel s) x (s_timeout s) (s_buf s) (s_reapplied s) (s_any s) (s_ub s) (s_oof s).
Definition set_timeout x s := St (s_client s) (s_active s) (s_exit s) (s_seq s) (s_might s) (s_pdev s) (s_rdev s) (s_hist s) (s_onrel s) (s_down s) x (s_buf s) (s_reapplied s) (s_any s) (s_ub s) (s_oof s).
Definition set_buf x s := St (s_client s) (s_active s) (s_exit s) (s_seq s) (s_might s) (s_pdev s) (s_rdev s) (s_hist s) (s_onrel s) (s_down s) (s_timeout s) x (s_reapplied s) (s_any s) (s_ub s) (s_oof s).
Definition set_reapplied x s := St (s_client s) (s_active s) (s_exit s) (s_seq s) (s_might s) (s_pdev s) (s_rdev s) (s_hist s) (s_onrel s) (s_down s) (s_timeout s) (s_buf s) x (s_any s) (s_ub s) (s_oof s).
Definition set_any x s := St (s_client s) (s_active s) (s_exit s) (s_seq s) (s_might s) (s_pdev s) (s_rdev s) (s_hist s) (s_onrel s) (s_down s) (s_timeout s) (s_buf s) (s_reapplied s) x (s_ub s) (s_oof s).
Definition set_ub s := St (s_client s) (s_active s) (s_exit s) (s_seq s) (s_might s) (s_pdev s) (s_rdev s) (s_hist s) (s_onrel s) (s_down s) (s_timeout s) (s_buf s) (s_reapplied s) (s_any s) true (s_oof s).
Definition set_oof s := St (s_client s) (s_active s) (s_exit s) (s_seq s) (s_might s) (s_pdev s) (s_rdev s) (s_hist s) (s_onrel s) (s_down s) (s_timeout s) (s_buf s) (s_reapplied s) (s_any s) (s_ub s) true.

Definition emit (e : event) (s : state) : state := set_buf (s_buf s ++ [e]) s.

Definition ub_unless (b : bool) (s : state) : state := if b then s else set_ub s.

(** * Helpers of the anonymous namespace, Stage.cpp:9-140 *)

Definition has_key (k : key) (e : event) : bool := ek e =? k.

(** Stage.cpp:12-15, 17-23 *)
Definition find_key (l : sequence) (k : key) : option nat := find_index (has_key k) l.
Definition rfind_key (l : sequence) (k : key) : option nat := rfind_index (has_key k) l.

(** Stage.cpp:25-33 contains *)
Definition contains_ev (l : sequence) (e : event) : bool := existsb (event_eqb e) l.

(** Stage.cpp:35-37 *)
Definition is_non_optional (e : event) : bool :=
  match es e with Up | Down => true | _ => false end.
(** Stage.cpp:39-41 *)
Definition has_non_optional (l : sequence) : bool := existsb is_non_optional l.
(** Stage.cpp:43-46 *)
Definition has_unmatched_down (l : sequence) : bool :=
  existsb (fun e => kstate_eqb (es e) Down) l.

(** Stage.cpp:49-57 sort_command_outputs: sort by decreasing index.  std::sort is
    not stable; for equal indices (excluded by ParseConfig.cpp:993-995) the order is
    unspecified, the model keeps them stable. *)
Fixpoint insert_command (c : command) (l : list command) : list command :=
  match l with
  | [] => [c]
  | x :: r => if (cm_idx x <? cm_idx c)%Z then c :: x :: r else x :: insert_command c r
  end.
Definition sort_commands (l : list command) : list command :=
  fold_left (fun acc c => insert_command c acc) l [].

Definition sort_context (c : context) : context :=
  Ctx (cx_inputs c) (cx_outputs c) (sort_commands (cx_commands c)) (cx_devf c)
      (cx_devidf c) (cx_mods c) (cx_bits c) (cx_inv c) (cx_fall c).

(** Stage.cpp:142-147 the constructor (the flags are recomputed on demand). *)
Definition new_stage (cs : list context) : list context := map sort_context cs.

(** Stage.cpp:59-75 has_mouse_mappings *)
Definition seq_has_mouse (l : sequence) : bool :=
  existsb (fun e => is_mouse_button (ek e) || is_mouse_wheel (ek e)) l.
Definition has_mouse_mappings (cs : list context) : bool :=
  existsb (fun c => seq_has_mouse (cx_mods c)
                    || existsb (fun i => seq_has_mouse (in_seq i)) (cx_inputs c)) cs.

(** Stage.cpp:77-87 has_device_filter *)
Definition ctx_has_device_filter (c : context) : bool :=
  match cx_devf c, cx_devidf c with None, None => false | _, _ => true end.
Definition has_device_filters (cs : list context) : bool :=
  existsb ctx_has_device_filter cs.

(** Stage.cpp:89-92 *)
Definition is_nmm_mapping (l : sequence) : bool :=
  match l with e :: _ => kstate_eqb (es e) NoMightMatch | [] => false end.
(** Stage.cpp:94-100 *)
Definition has_nmm_mapping (cs : list context) : bool :=
  existsb (fun c => existsb (fun i => is_nmm_mapping (in_seq i)) (cx_inputs c)) cs.

Fixpoint find_last {A} (f : A -> bool) (l : list A) : option A :=
  match l with
  | [] => None
  | x :: r => match find_last f r with
              | Some y => Some y
              | None => if f x then Some x else None
              end
  end.

(** Stage.cpp:102-109 *)
Definition find_last_down_event (l : sequence) : option event :=
  find_last (fun e => match es e with Down | DownMatched => true | _ => false end) l.

(** Stage.cpp:119-131.  `input.back()` of an empty input is undefined behaviour; it
    cannot be reached from a Match result with non-empty inputs, the model returns
    [matches_none] there (see [wf_contexts]). *)
Definition get_trigger_event (t : trigger) : event :=
  match t with
  | TEvent e => e
  | TKey k => ev0 k Down
  | TSeq l => match find_last is_non_optional l with
              | Some e => e
              | None => last l matches_none
              end
  end.
(** Stage.cpp:133-135 *)
Definition get_trigger_key (t : trigger) : key := ek (get_trigger_event t).

(** * Stage members *)

(** Stage.cpp:149-157 *)
Definition is_clear (s : state) : bool :=
  match s_down s, s_onrel s, s_seq s, s_hist s, s_timeout s with
  | [], [], [], [], None => (s_rdev s =? no_device)%Z && negb (s_might s)
  | _, _, _, _, _ => false
  end.

(** Stage.cpp:159-165 *)
Definition get_output_keys_down (s : state) : list key :=
  filter is_device_key (map od_key (s_down s)).

(** Filter.h:12-26 Filter::matches for a device filter (inversion included in the
    predicate; an empty filter without inversion matches everything). *)
Definition filter_matches (f : option (list N -> bool)) (t : list N) : bool :=
  match f with None => true | Some p => p t end.

(** DeviceDesc.h: name and id. *)
Record device_desc : Type := Dev { dev_name : list N; dev_id : list N }.

(** Stage.cpp:170-177; the bits are 64 wide, shifting out drops the bit. *)
Fixpoint device_bits (c : context) (ds : list device_desc) (bit bits : N) : N :=
  match ds with
  | [] => bits
  | d :: r =>
      let bits' := if filter_matches (cx_devf c) (dev_name d)
                      && filter_matches (cx_devidf c) (dev_id d)
                   then N.lor bits bit else bits in
      device_bits c r (N.land (N.shiftl bit 1) all_device_bits) bits'
  end.

(** Stage.cpp:167-182 *)
Definition evaluate_device_filters (ds : list device_desc) (cs : list context) : list context :=
  map (fun c =>
         Ctx (cx_inputs c) (cx_outputs c) (cx_commands c) (cx_devf c) (cx_devidf c)
             (cx_mods c)
             (if ctx_has_device_filter c then device_bits c ds 1 0 else all_device_bits)
             (cx_inv c) (cx_fall c)) cs.

(** Stage.cpp:184-193.  Shifting by >= 64 is undefined behaviour and excluded by the
    precondition [valid_device]. *)
Definition device_matches_filter (c : context) (dev : Z) : bool :=
  if (dev =? any_device)%Z then true
  else if (dev =? no_device)%Z then cx_bits c =? all_device_bits
  else N.testbit (cx_bits c) (Z.to_N dev).
Definition valid_device (dev : Z) : bool := (-2 <=? dev)%Z && (dev <? 64)%Z.

(** Stage.cpp:310-325; exit_sequence from Stage.cpp:10. *)
Definition exit_sequence : list key := [ShiftLeft; Escape; K_K].
Definition advance_exit (e : event) (p : nat) : nat :=
  if negb (is_keyboard_key (ek e)) then p
  else if kstate_eqb (es e) Down then
    if match p with O => false
       | S q => match nth_error exit_sequence q with Some k => ek e =? k | None => false end
       end
    then p
    else if match nth_error exit_sequence p with Some k => ek e =? k | None => false end
    then S p
    else 0%nat
  else 0%nat.
(** Stage.cpp:327-329 *)
Definition should_exit (s : state) : bool := Nat.eqb (s_exit s) (length exit_sequence).

(** Stage.cpp:342-360 *)
Definition validate_state (is_down : key -> bool) (s : state) : state :=
  let s := set_might false s in
  let s := set_seq (filter (fun e => negb (is_device_key (ek e) && negb (is_down (ek e))))
                           (s_seq s)) s in
  set_down (filter (fun o => negb (is_device_key (od_key o)
                                   && negb (is_down (get_trigger_key (od_trigger o)))))
                   (s_down s)) s.

(** Stage.cpp:445-448 *)
Definition is_physically_pressed (s : state) (k : key) : bool :=
  match rfind_key (s_seq s) k with
  | Some i => match nth_error (s_seq s) i with
              | Some e => negb (kstate_eqb (es e) Up)
              | None => false
              end
  | None => false
  end.

(** Stage.cpp:211-219 *)
Definition match_modifier_filter (sq : sequence) (mods : sequence) : bool :=
  forallb (fun m => Bool.eqb (existsb (has_key (ek m)) sq)
                             (negb (kstate_eqb (es m) Not))) mods.

(** Reapplying of temporarily released keys, Stage.cpp:838-858.  Returns the
    rewritten m_output_down, the buffer, m_temporary_reapplied and whether the
    function returned early. *)
Fixpoint reapply_loop (k : key) (l : list out_down) (buf : sequence) (rea : bool)
  : list out_down * sequence * bool * bool :=
  match l with
  | [] => ([], buf, rea, false)
  | o :: r =>
      if od_temp o && negb (od_suppressed o) then
        let o' := OD (od_key o) (od_trigger o) (od_suppressed o) false (od_twice o) (od_ctx o) in
        let buf' := buf ++ [ev0 (od_key o) Down] in
        if od_key o =? k then (o' :: r, buf', true, true)
        else let '(r', b, re, ret) := reapply_loop k r buf' true in (o' :: r', b, re, ret)
      else if od_temp o && (od_key o =? k)
              && is_common_modifier k
              && match back buf with
                 | Some x => event_eqb x (ev0 k Up)
                 | None => false
                 end
      then (OD (od_key o) (od_trigger o) (od_suppressed o) false (od_twice o) (od_ctx o) :: r,
            pop_back buf, rea, true)
      else let '(r', b, re, ret) := reapply_loop k r buf rea in (o :: r', b, re, ret)
  end.

(** Stage.cpp:788-893 update_output.  The position found at 789 stays valid because
    the reapply loop does not change keys. *)
Definition update_output (e : event) (t : trigger) (ci : option nat) (s : state) : state :=
  let it := find_index (fun o => od_key o =? ek e) (s_down s) in
  match es e with
  | Up =>
      match it with
      | None => s
      | Some i =>
          match nth_error (s_down s) i with
          | None => s
          | Some o =>
              if od_twice o && is_virtual_key (ek e) then
                (* 795-800 *)
                emit e (set_down (update_at i (fun o => OD (od_key o) (od_trigger o)
                                    (od_suppressed o) (od_temp o) false (od_ctx o)) (s_down s)) s)
              else if od_twice o && negb (od_suppressed o) then
                (* 801-808 *)
                let s := match rfind_key (s_buf s) (ek e) with
                         | Some j => set_buf (remove_at j (s_buf s)) s
                         | None => s
                         end in
                set_down (update_at i (fun o => OD (od_key o) (od_trigger o)
                                    (od_suppressed o) (od_temp o) false (od_ctx o)) (s_down s)) s
              else
                (* 809-817 *)
                let d := if get_trigger_key (od_trigger o) =? get_trigger_key t
                         then remove_at i (s_down s)
                         else update_at i (fun o => OD (od_key o) (od_trigger o)
                                    (od_suppressed o) true (od_twice o) (od_ctx o)) (s_down s) in
                emit e (set_down d s)
          end
      end
  | Not =>
      match it with
      | None => s
      | Some i =>
          if is_virtual_key (ek e) || is_action_key (ek e) then s
          else
            match nth_error (s_down s) i with
            | None => s
            | Some o =>
                let s := if od_temp o then s else emit (ev0 (ek e) Up) s in
                set_down (update_at i (fun o => OD (od_key o) (od_trigger o)
                                    true true (od_twice o) (od_ctx o)) (s_down s)) s
            end
      end
  | Down =>
      let '(d, buf, rea, ret) := reapply_loop (ek e) (s_down s) (s_buf s) (s_reapplied s) in
      let s := set_reapplied rea (set_buf buf (set_down d s)) in
      if ret then s
      else
        let s :=
          match it with
          | None =>
              if ek e =? k_timeout then s
              else set_down (s_down s ++ [OD (ek e) t false false false ci]) s
          | Some i =>
              let s := if s_reapplied s then emit (ev0 (ek e) Up) s else s in
              set_down (update_at i (fun o => OD (od_key o) (od_trigger o) (od_suppressed o)
                                    false (negb (s_reapplied s)) (od_ctx o)) (s_down s)) s
          end in
        emit e s
  | _ => s
  end.

(** Stage.cpp:720-755 apply_output *)
Fixpoint apply_output (sq : sequence) (t : trigger) (ci : option nat) (s : state) : state :=
  match sq with
  | [] => s
  | e :: r =>
      if ek e =? k_any then
        let s :=
          match es e with
          | Not => fold_left (fun s k => update_output (ev0 k Not) t ci s)
                             (map od_key (s_down s)) s
          | st => fold_left (fun s k => update_output (ev0 k st) t ci s) (s_any s) s
          end in
        apply_output r t ci s
      else
        match es e with
        | OutputOnRelease =>
            let te := get_trigger_event t in
            match es te with
            | Down => set_onrel (s_onrel s ++ [OnRel (ek te) r ci]) s
            | _ => apply_output r t ci s
            end
        | Not =>
            if is_virtual_key (ek e) then
              let s := if existsb (has_key (ek e)) (s_seq s)
                       then update_output (ev0 (ek e) Down) t ci s else s in
              apply_output r t ci s
            else apply_output r t ci (update_output e t ci s)
        | _ => apply_output r t ci (update_output e t ci s)
        end
  end.

Definition opt_nat_eqb (a b : option nat) : bool :=
  match a, b with
  | Some x, Some y => Nat.eqb x y
  | None, None => true
  | _, _ => false
  end.

(** Stage.cpp:677-693.  Returns false when the event is to be ignored. *)
Definition continue_output_on_release (e : event) (ci : option nat) (s : state) : state * bool :=
  match find_index (fun o => (or_trigger o =? ek e)
                             && (negb (or_trigger o =? k_ContextActive)
                                 || opt_nat_eqb (or_ctx o) ci)) (s_onrel s) with
  | None => (s, true)
  | Some i =>
      match es e with
      | Down => (s, false)
      | _ =>
          match nth_error (s_onrel s) i with
          | None => (s, true)
          | Some o =>
              let s := apply_output (or_seq o) (TEvent e) (or_ctx o) s in
              (set_onrel (remove_at i (s_onrel s)) s, true)
          end
      end
  end.

(** Stage.cpp:697-705: the partition predicate (true = keep). *)
Definition keep_triggered (k : key) (ci : option nat) (o : out_down) : bool :=
  if get_trigger_key (od_trigger o) =? k
  then if k =? k_ContextActive then negb (opt_nat_eqb (od_ctx o) ci) else false
  else true.

(** Stage.cpp:695-718 *)
Definition release_triggered (k : key) (ci : option nat) (s : state) : state :=
  let keep := filter (keep_triggered k ci) (s_down s) in
  let rel := filter (fun o => negb (keep_triggered k ci o)) (s_down s) in
  let ups := map (fun o => ev0 (od_key o) Up)
                 (filter (fun o => negb (od_temp o)) (rev rel)) in
  let s := set_down keep (set_buf (s_buf s ++ ups) s) in
  match s_timeout s with
  | Some c => if ct_trigger c =? k then set_timeout None s else s
  | None => s
  end.

(** Stage.cpp:757-786 forward_from_sequence; [pre] holds the skipped events. *)
Fixpoint forward_loop (pre l : sequence) (s : state) : state :=
  match l with
  | [] => s
  | e :: r =>
      match es e with
      | Down | DownMatched =>
          if contains_ev (e :: r) (ev0 (ek e) Up) then
            let s := update_output e (TKey (ek e)) None s in
            set_seq (pre ++ r) s
          else
            match es e with
            | Down =>
                let s := match s_timeout s with
                         | Some c => match ct_output c with
                                     | Some _ => s
                                     | None => update_output e (TKey (ek e)) None s
                                     end
                         | None => update_output e (TKey (ek e)) None s
                         end in
                set_seq (pre ++ set_es DownMatched e :: r) s
            | _ => forward_loop (pre ++ [e]) r s
            end
      | _ =>
          let s := release_triggered (ek e) None s in
          set_seq (pre ++ r) s
      end
  end.
Definition forward_from_sequence (s : state) : state := forward_loop [] (s_seq s) s.

(** Stage.cpp:895-919 finish_sequence; [n] is the number of events of the matched
    range still to be treated, [l] the events from position i on. *)
Fixpoint finish_loop (n : nat) (l : sequence) : sequence :=
  match n, l with
  | O, _ => l
  | _, [] => []
  | S n', e :: r =>
      match es e with
      | Down | DownMatched =>
          if contains_ev (e :: r) (ev0 (ek e) Up) then finish_loop n' r
          else set_es DownMatched e :: finish_loop n' r
      | _ =>
          if ek e =? k_timeout then set_es UpMatched e :: finish_loop n' r
          else finish_loop n' r
      end
  end.
Definition finish_sequence (n : nat) (s : state) : state :=
  set_seq (finish_loop n (s_seq s)) s.

Section WithContexts.
(** m_contexts *)
Variable cs : list context.

(** Stage.cpp:296-300; None = ran past the last context (undefined behaviour). *)
Fixpoint fallthrough_from (l : list context) (i : nat) : option nat :=
  match l with
  | [] => None
  | c :: r => if cx_fall c then fallthrough_from r (S i) else Some i
  end.
Definition fallthrough_context (i : nat) : option nat := fallthrough_from (skipn i cs) i.

(** Stage.cpp:302-308 *)
Definition is_context_active (s : state) (ci : option nat) : bool :=
  existsb (fun a => opt_nat_eqb (Some a) ci || match fallthrough_context a with
                                               | Some f => opt_nat_eqb (Some f) ci
                                               | None => false
                                               end) (s_active s).

(** Stage.cpp:373-377 binary search on the reversed (increasing) list: the first
    element whose index is not below the wanted one, modelled as linear search.
    Positions refer to the sorted (decreasing) list. *)
Definition find_command (l : list command) (idx : Z) : option nat :=
  match rfind_index (fun c => negb (cm_idx c <? idx)%Z) l with
  | Some i => match nth_error l i with
              | Some c => if (cm_idx c =? idx)%Z then Some i else None
              | None => None
              end
  | None => None
  end.

Inductive lookup : Type := LFound (r : oref) (o : sequence) | LNone | LUB.

(** Stage.cpp:368-379, from the last active context to the first. *)
Fixpoint find_command_output (rev_active : list nat) (idx : Z) : lookup :=
  match rev_active with
  | [] => LNone
  | a :: r =>
      match fallthrough_context a with
      | None => LUB
      | Some f =>
          match nth_error cs f with
          | None => LUB
          | Some c =>
              match find_command (cx_commands c) idx with
              | Some i => match nth_error (cx_commands c) i with
                          | Some cm => LFound (OCommand f i) (cm_out cm)
                          | None => LUB
                          end
              | None => find_command_output r idx
              end
          end
      end
  end.

(** Stage.cpp:362-380 *)
Definition find_output (active : list nat) (ci : nat) (c : context) (idx : Z) : lookup :=
  if (0 <=? idx)%Z then
    match nth_error (cx_outputs c) (Z.to_nat idx) with
    | Some o => LFound (ODirect ci (Z.to_nat idx)) o
    | None => LUB
    end
  else find_command_output (rev active) idx.

(** Stage.cpp:267-284 *)
Definition on_context_active_event (e : event) (ci : nat) (s : state) : state :=
  match nth_error cs ci with
  | None => set_ub s
  | Some c =>
      let s := ub_unless (forallb (fun i => match in_seq i with [] => false | _ => true end)
                                  (cx_inputs c)) s in
      match find (fun i => match in_seq i with
                           | x :: _ => ek x =? k_ContextActive
                           | [] => false
                           end) (cx_inputs c) with
      | None => s
      | Some i =>
          match es e with
          | Down =>
              match find_output (s_active s) ci c (in_out i) with
              | LFound _ o => apply_output o (TEvent e) (Some ci) s
              | LNone => s
              | LUB => set_ub s
              end
          | _ =>
              let '(s, _) := continue_output_on_release e (Some ci) s in
              release_triggered (ek e) (Some ci) s
          end
      end
  end.

(** Stage.cpp:225-234: the contexts which become active, None = undefined behaviour
    (client index out of range or fallthrough past the end). *)
Fixpoint eval_active (sq : sequence) (client acc : list nat) : option (list nat) :=
  match client with
  | [] => Some acc
  | i :: r =>
      match nth_error cs i with
      | None => None
      | Some c =>
          if xorb (match_modifier_filter sq (cx_mods c)) (cx_inv c)
             && (negb (ctx_has_device_filter c) || negb (cx_bits c =? 0))
          then match fallthrough_context i with
               | None => None
               | Some f =>
                   eval_active sq r
                     (match back acc with
                      | Some b => if Nat.eqb b f then acc else acc ++ [f]
                      | None => acc ++ [f]
                      end)
               end
          else eval_active sq r acc
      end
  end.

(** Stage.cpp:238-264: the contexts toggled in one pass over the two sorted lists. *)
Fixpoint toggled (act : bool) (p c : list nat) {struct p} : list nat :=
  let fix go (c : list nat) : list nat :=
    match p, c with
    | [], [] => []
    | [], c0 :: c' => if act then c0 :: go c' else go c'
    | p0 :: p', [] => if act then toggled act p' [] else p0 :: toggled act p' []
    | p0 :: p', c0 :: c' =>
        if Nat.ltb p0 c0 then
          if act then toggled act p' c else p0 :: toggled act p' c
        else if Nat.ltb c0 p0 then
          if act then c0 :: go c' else go c'
        else toggled act p' c'
    end in
  go c.

(** Stage.cpp:221-265 *)
Definition update_active_contexts (s : state) : state :=
  let prev := s_active s in
  match eval_active (s_seq s) (s_client s) [] with
  | None => set_ub s
  | Some curr =>
      let s := set_active curr s in
      let s := fold_left (fun s p => on_context_active_event (ev0 k_ContextActive Up) p s)
                         (toggled false prev curr) s in
      fold_left (fun s c => on_context_active_event (ev0 k_ContextActive Down) c s)
                (toggled true prev curr) s
  end.

(** Stage.cpp:286-294 *)
Definition cancel_inactive_output_on_release (s : state) : state :=
  set_onrel (filter (fun o => is_context_active s (or_ctx o)) (s_onrel s)) s.

(** Stage.cpp:195-209; the returned sequence is the buffer. *)
Definition set_active_client_contexts (indices : list nat) (s : state) : state * sequence :=
  let s := set_client indices s in
  let s := update_active_contexts s in
  let s := cancel_inactive_output_on_release s in
  (set_buf [] s, s_buf s).

(** MatchInputResult, Stage.h:59 *)
Inductive min_result : Type :=
| RNo
| RMight (inp : sequence) (ci : nat)
| RMatch (r : oref) (o : sequence) (inp : sequence) (ci : nat).

(** Stage.cpp:415-435: bookkeeping when an input might match. *)
Definition on_might_match (t : option event) (sq : sequence) (is_key_up : bool) (s : state) : state :=
  match t with
  | None => s
  | Some te =>
      let s := emit te s in
      match find_last_down_event sq with
      | None => s
      | Some tr =>
          let changed := match s_timeout s with
                         | None => true
                         | Some c => negb (event_eqb (ct_event c) te)
                                     || negb (ct_trigger c =? ek tr)
                         end in
          if changed then set_timeout (Some (CT te (ek tr) None false)) s
          else if is_key_up then set_buf (pop_back (s_buf s)) s
          else s
      end
  end.

(** Stage.cpp:391-440: the inputs of one context; None = nothing found yet. *)
Fixpoint match_inputs (first : bool) (sq : sequence) (dev : Z) (is_key_up : bool)
         (ci : nat) (c : context) (l : list input) (s : state) : state * option min_result :=
  match l with
  | [] => (s, None)
  | i :: r =>
      let inp := in_seq i in
      let nmm := is_nmm_mapping inp in
      if nmm && (negb first || match s_hist s with [] => true | _ => false end)
      then match_inputs first sq dev is_key_up ci c r s
      else if nmm && (dev =? any_device)%Z
      then match_inputs first sq dev is_key_up ci c r s
      else
        match match_keys inp (if nmm then s_hist s else sq) with
        | None => (set_oof s, Some RNo)
        | Some (res, anys, t) =>
            let s := set_any anys s in
            let s := ub_unless (match inp with [] => false | _ => true end) s in
            match res with
            | MightMatch =>
                if first && negb nmm
                then (on_might_match t sq is_key_up s, Some (RMight inp ci))
                else match_inputs first sq dev is_key_up ci c r s
            | Matched =>
                match find_output (s_active s) ci c (in_out i) with
                | LFound ref o => (s, Some (RMatch ref o inp ci))
                | LNone => match_inputs first sq dev is_key_up ci c r s
                | LUB => (set_ub s, Some RNo)
                end
            | NoMatch => match_inputs first sq dev is_key_up ci c r s
            end
        end
  end.

(** Stage.cpp:386-442: the active contexts in order. *)
Fixpoint match_contexts (first : bool) (sq : sequence) (dev : Z) (is_key_up : bool)
         (active : list nat) (s : state) : state * min_result :=
  match active with
  | [] => (s, RNo)
  | ci :: r =>
      match nth_error cs ci with
      | None => (set_ub s, RNo)
      | Some c =>
          if device_matches_filter c dev then
            match match_inputs first sq dev is_key_up ci c (cx_inputs c) s with
            | (s, Some res) => (s, res)
            | (s, None) => match_contexts first sq dev is_key_up r s
            end
          else match_contexts first sq dev is_key_up r s
      end
  end.

(** Stage.cpp:382-443 *)
Definition match_input (first : bool) (sq : sequence) (dev : Z) (is_key_up : bool)
                       (s : state) : state * min_result :=
  match_contexts first sq dev is_key_up (s_active s) (ub_unless (valid_device dev) s).

(** Stage.cpp:578-589: the longest proper prefix of the sequence which matches.
    [n] is sequence.size(); returns the size of the matching prefix. *)
Fixpoint match_prefixes (n : nat) (dev : Z) (is_key_up : bool) (s : state)
  : state * option (nat * min_result) :=
  match n with
  | O => (s, None)
  | S n' =>
      if Nat.ltb 1 n then
        let sq := firstn n' (s_seq s) in
        if negb (has_unmatched_down sq) then (s, None)
        else
          match match_input false sq dev is_key_up s with
          | (s, RMatch r o i c) => (s, Some (n', RMatch r o i c))
          | (s, _) => match_prefixes n' dev is_key_up s
          end
      else (s, None)
  end.

(** Stage.cpp:594-609 *)
Definition timeout_after_match (e : event) (start_only : bool) (res : min_result) (s : state)
  : state * min_result :=
  match s_timeout s with
  | None => (s, res)
  | Some c =>
      if is_not_timeout (es (ct_event c)) then (s, res)
      else if ek e =? k_timeout then
        match res with
        | RMatch r o i ci =>
            match ct_output c with
            | None =>
                if start_only then (s, res)
                else (set_timeout (Some (CT (ct_event c) (ct_trigger c) (Some r)
                                            (ct_not_exceeded c))) s, res)
            | Some r0 => if oref_eqb r0 r then (s, res) else (s, RNo)
            end
        | _ => (s, res)
        end
      else
        match res with
        | RNo => (set_timeout (Some (CT (ct_event c) (ct_trigger c) None
                                        (ct_not_exceeded c))) s, res)
        | _ => (s, res)
        end
  end.

(** Stage.cpp:611-615 *)
Definition not_timeout_after_match (res : min_result) (s : state) : state :=
  match s_timeout s with
  | Some c =>
      if is_not_timeout (es (ct_event c)) then
        match res with
        | RNo => set_timeout (Some (CT (ct_event c) (ct_trigger c) (ct_output c) true)) s
        | _ => s
        end
      else s
  | None => s
  end.

(** Stage.cpp:618-638: the trigger of a matched output. *)
Definition select_trigger (e : event) (inp o : sequence) (s : state) : trigger :=
  let t := TSeq inp in
  let t := if (get_trigger_key t =? k_any) || (ek e =? k_timeout) then TEvent e else t in
  let t := if get_trigger_key t =? k_timeout
           then match s_timeout s with Some c => TKey (ct_trigger c) | None => t end
           else t in
  if is_physically_pressed s (get_trigger_key t) then t
  else
    let keep := match o with
                | [x] => event_eqb x (get_trigger_event t)
                         && contains_ev (s_seq s) (ev0 (get_trigger_key t) Up)
                | _ => false
                end in
    if keep then t else TEvent e.

(** One round of the loop Stage.cpp:554-655; true = break. *)
Definition apply_round (e : event) (dev : Z) (s : state) : state * bool :=
  let is_key_up := kstate_eqb (es e) Up && negb (ek e =? k_timeout) in
  let n := length (s_seq s) in
  let '(s, res) := match_input true (s_seq s) dev is_key_up s in
  let matched := match res with RMatch _ _ _ _ => true | _ => false end in
  (* 560-565 *)
  if is_virtual_key (ek e) && negb matched then (finish_sequence n s, true)
  else
    match res with
    (* 567-571 *)
    | RMight _ _ => (set_might true s, true)
    | _ =>
        (* 573-590 *)
        let '(s, len, res, start_only) :=
          if negb matched && s_might s then
            match match_prefixes n dev is_key_up s with
            | (s, Some (len, r)) => (s, len, r, true)
            | (s, None) => (s, n, RNo, false)
            end
          else (s, n, res, false) in
        let '(s, res) := timeout_after_match e start_only res s in
        let s := not_timeout_after_match res s in
        match res with
        | RMatch _ o inp ci =>
            (* 617-647 *)
            let t := select_trigger e inp o s in
            let s := apply_output o t (Some ci) s in
            let s := finish_sequence len s in
            ((if start_only then s else set_might false s), false)
        | _ =>
            (* 648-654 *)
            let s := forward_from_sequence s in
            ((if s_might s && negb (has_non_optional (s_seq s)) then set_might false s else s),
             false)
        end
    end.

(** The loop Stage.cpp:554-655 *)
Fixpoint apply_loop (fuel : nat) (e : event) (dev : Z) (s : state) : state :=
  if has_non_optional (s_seq s) then
    match fuel with
    | O => set_oof s
    | S fuel' =>
        let '(s, brk) := apply_round e dev s in
        if brk then s else apply_loop fuel' e dev s
    end
  else s.

(** Stage.cpp:664-667 *)
Fixpoint drop_up_matched (l : sequence) : sequence :=
  match l with
  | e :: r => if kstate_eqb (es e) UpMatched then drop_up_matched r else l
  | [] => []
  end.

(** Stage.cpp:935-943: does some active `?`-mapping still possibly match the history?
    None: out of fuel in the matcher. *)
Definition history_might_match (s : state) : bool :=
  existsb (fun ci =>
    match nth_error cs ci with
    | None => false
    | Some c =>
        existsb (fun i => is_nmm_mapping (in_seq i)
                          && match match_keys (tl (in_seq i)) (s_hist s) with
                             | Some (MightMatch, _, _) => true
                             | _ => false
                             end) (cx_inputs c)
    end) (s_active s).

Fixpoint remove_first_ev (e : event) (l : sequence) : option sequence :=
  match l with
  | [] => None
  | x :: r => if event_eqb x e then Some r
              else match remove_first_ev e r with Some r' => Some (x :: r') | None => None end
  end.

(** Stage.cpp:921-950 clean_up_history; each round removes two events. *)
Fixpoint clean_up_history (fuel : nat) (s : state) : state :=
  match s_hist s with
  | [] => s
  | e :: r =>
      match fuel with
      | O => set_oof s
      | S fuel' =>
          let up := Ev (ek e) Up (ev e) in
          if negb (contains_ev (s_hist s) up) then s
          else if history_might_match s then s
          else match remove_first_ev up r with
               | None => set_ub s          (* erase(end()) at 948 *)
               | Some h => clean_up_history fuel' (set_hist h s)
               end
      end
  end.

(** Stage.cpp:462-476.  Returns false when the event is to be ignored. *)
Definition suppress_not_timeout (e : event) (s : state) : state * bool :=
  match s_timeout s with
  | None => (s, true)
  | Some c =>
      if is_not_timeout (es (ct_event c)) then
        if ek e =? k_timeout then
          if ev (ct_event c) =? ev e
          then (set_timeout (Some (CT (ct_event c) (ct_trigger c) (ct_output c) true)) s, true)
          else (s, negb (ct_not_exceeded c))
        else if kstate_eqb (es e) Up && (ct_trigger c =? ek e)
        then (set_timeout (Some (CT (ct_event c) (ct_trigger c) (ct_output c) false)) s, true)
        else (s, true)
      else (s, true)
  end.

(** Stage.cpp:478-509: merging of key repeats.  Returns false when the event is to
    be ignored. *)
Definition merge_repeat (e : event) (dev : Z) (s : state) : state * bool :=
  match es e with
  | Down =>
      match rfind_key (s_seq s) (ek e) with
      | Some i =>
          if match nth_error (s_seq s) i with
             | Some x => negb (kstate_eqb (es x) Up)
             | None => false
             end
          then
            if s_might s then (s, false)
            else if negb (dev =? no_device)%Z then
              let s := if (dev =? s_pdev s)%Z then set_rdev dev s else s in
              if negb (dev =? s_rdev s)%Z then (s, false)
              else (set_seq (remove_at i (s_seq s)) s, true)
            else (set_seq (remove_at i (s_seq s)) s, true)
          else
            (if (dev =? no_device)%Z then s
             else set_pdev dev (if (dev =? s_rdev s)%Z then set_rdev no_device s else s), true)
      | None =>
          (if (dev =? no_device)%Z then s
           else set_pdev dev (if (dev =? s_rdev s)%Z then set_rdev no_device s else s), true)
      end
  | _ => ((if (dev =? s_rdev s)%Z then set_rdev no_device s else s), true)
  end.

(** Stage.cpp:514-527 *)
Definition add_to_history (e : event) (s : state) : state :=
  if has_nmm_mapping cs && negb (is_virtual_key (ek e)) && negb (ek e =? k_timeout) then
    let last_down := match rfind_key (s_hist s) (ek e) with
                     | Some i => match nth_error (s_hist s) i with
                                 | Some x => kstate_eqb (es x) Down
                                 | None => false
                                 end
                     | None => false
                     end in
    match es e with
    | Down => if last_down then s else set_hist (s_hist s ++ [e]) s
    | _ => if last_down then set_hist (s_hist s ++ [e]) s else s
    end
  else s.

(** Stage.cpp:532-548 *)
Definition prepare_up (e : event) (s : state) : state :=
  if kstate_eqb (es e) Up then
    let s := match s_timeout s with
             | Some c => match ct_output c with
                         | Some _ => set_seq (map (fun x => if kstate_eqb (es x) Down
                                                            then set_es DownMatched x else x)
                                                  (s_seq s)) s
                         | None => s
                         end
             | None => s
             end in
    if s_might s then s
    else match find_key (s_seq s) (ek e) with
         | None => set_ub s
         | Some i => match nth_error (s_seq s) i with
                     | Some x => if kstate_eqb (es x) DownMatched
                                 then set_seq (remove_at i (s_seq s)) s else s
                     | None => s
                     end
         end
  else s.

(** Fuel for the loop: Down and Up count 2, the other states 1. *)
Definition weight (l : sequence) : nat :=
  fold_right (fun e n => ((if is_non_optional e then 2 else 1) + n)%nat) 0%nat l.

(** Stage.cpp:550-551 *)
Definition unsuppress (s : state) : state :=
  set_down (map (fun o => OD (od_key o) (od_trigger o) false (od_temp o) (od_twice o) (od_ctx o))
                (s_down s)) s.

(** Stage.cpp:657-674 *)
Definition finish_input (e : event) (s : state) : state :=
  let s := if kstate_eqb (es e) Up then release_triggered (ek e) None s else s in
  let s := update_active_contexts s in
  let s := set_seq (drop_up_matched (s_seq s)) s in
  let s := match s_seq s with [] => set_timeout None s | _ => s end in
  let s := set_reapplied false s in
  clean_up_history (length (s_hist s)) s.

(** Stage.cpp:511-675: the part of apply_input which is not skipped by an early return *)
Definition process_input (e : event) (dev : Z) (s : state) : state :=
  let s := set_seq (s_seq s ++ [e]) s in
  let s := add_to_history e s in
  let s := update_active_contexts s in
  let s := prepare_up e s in
  let s := unsuppress s in
  let s := apply_loop (weight (s_seq s)) e dev s in
  finish_input e s.

(** Stage.cpp:450-675 *)
Definition apply_input (e : event) (dev : Z) (s : state) : state :=
  let '(s, go) := continue_output_on_release e None s in
  if negb go then s
  else
    let '(s, go) := suppress_not_timeout e s in
    if negb go then s
    else
      let '(s, go) := merge_repeat e dev s in
      if negb go then s
      else process_input e dev s.

(** Stage.cpp:331-335; the returned sequence is the buffer. *)
Definition update (e : event) (dev : Z) (s : state) : state * sequence :=
  let s := set_exit (advance_exit e (s_exit s)) s in
  let s := apply_input e dev s in
  (set_buf [] s, s_buf s).

End WithContexts.
