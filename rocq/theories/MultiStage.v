(** Model of src/runtime/MultiStage.cpp and src/runtime/MultiStage.h. *)
From Coq Require Import List Arith NArith ZArith Bool.
From Verif Require Import Base Key Match Stage.
Import ListNotations.
Local Open Scope N_scope.

(** MultiStage.cpp:5-9 *)
Definition is_server_event (e : event) : bool :=
  (ek e =? k_timeout) || is_virtual_key (ek e) || is_action_key (ek e).

(** One element of m_stages: the contexts (changed by evaluate_device_filters) and
    the mutable members of a Stage. *)
Definition stage : Type := (list context * state)%type.

(** MultiStage.h:28-36.  m_input_buffer, m_context_active_buffer and m_indices_buffer
    are overwritten before each use and not part of the state; m_context_count is
    [context_count]. *)
Record mstage : Type := MS {
  m_stages : list stage;
  m_client : list Z;         (* m_active_client_contexts *)
  m_buf : sequence           (* m_output_buffer *)
}.

(** MultiStage.cpp:12-17; each stage sorts its commands (Stage.cpp:142-147). *)
Definition new_multi_stage (l : list (list context)) : mstage :=
  MS (map (fun cs => (new_stage cs, init_state)) l) [] [].

(** MultiStage.h:12 *)
Definition context_count (m : mstage) : nat :=
  fold_right (fun st n => (length (fst st) + n)%nat) 0%nat (m_stages m).

(** MultiStage.cpp:19-32 *)
Definition m_has_mouse_mappings (m : mstage) : bool :=
  existsb (fun st => has_mouse_mappings (fst st)) (m_stages m).
Definition m_has_device_filters (m : mstage) : bool :=
  existsb (fun st => has_device_filters (fst st)) (m_stages m).
Definition m_is_clear (m : mstage) : bool := forallb (fun st => is_clear (snd st)) (m_stages m).

(** MultiStage.cpp:34-38 *)
Definition m_output_keys_down (m : mstage) : list key :=
  match back (m_stages m) with
  | None => []
  | Some st => get_output_keys_down (snd st)
  end.

(** MultiStage.cpp:40-43 *)
Definition m_evaluate_device_filters (ds : list device_desc) (m : mstage) : mstage :=
  MS (map (fun st => (evaluate_device_filters ds (fst st), snd st)) (m_stages m))
     (m_client m) (m_buf m).

(** The update_stage closure, MultiStage.cpp:86-91 (and 60-63). *)
Definition update_stage (dev : Z) (cs : list context) (e : event) (so : state * sequence)
  : state * sequence :=
  let '(s, o) := update cs e dev (fst so) in (s, snd so ++ o).

(** The loop over the output of the previous stage, MultiStage.cpp:54-64 and 105-112. *)
Fixpoint feed_stage (fwd : bool) (dev : Z) (cs : list context) (l : sequence)
  (so : state * sequence) : state * sequence :=
  match l with
  | [] => so
  | e :: r =>
      feed_stage fwd dev cs r
        (if fwd && is_server_event e then (fst so, snd so ++ [e])
         else update_stage dev cs e so)
  end.

(** MultiStage.cpp:66-72: the indices of one stage, shifted to start at 0. *)
Definition stage_indices (lo hi : Z) (l : list Z) : list nat :=
  map (fun i => Z.to_nat (i - lo))
      (List.filter (fun i => (lo <=? i)%Z && (i <? hi)%Z) l).

(** MultiStage.cpp:50-77; [buf] is m_output_buffer. *)
Fixpoint contexts_loop (indices : list Z) (offset : Z) (buf : sequence) (l : list stage)
  : list stage * sequence :=
  match l with
  | [] => ([], buf)
  | (cs, s) :: r =>
      let '(s, out) := feed_stage true no_device cs buf (s, []) in
      let hi := (offset + Z.of_nat (length cs))%Z in
      let '(s, o) := set_active_client_contexts cs (stage_indices offset hi indices) s in
      let '(r', out') := contexts_loop indices hi (out ++ o) r in
      ((cs, s) :: r', out')
  end.

(** MultiStage.cpp:45-79.  Returns a copy of m_output_buffer, which keeps its content. *)
Definition m_set_active_client_contexts (indices : list Z) (m : mstage) : mstage * sequence :=
  let '(st, out) := contexts_loop indices 0 (m_buf m) (m_stages m) in
  (MS st indices out, out).

(** MultiStage.cpp:84-115; [buf] is m_output_buffer. *)
Fixpoint update_loop (first : bool) (e : event) (dev : Z) (buf : sequence) (l : list stage)
  : list stage * sequence :=
  match l with
  | [] => ([], buf)
  | (cs, s) :: r =>
      let so := (s, []) in
      let so := if (ek e =? k_timeout) && negb first then update_stage dev cs e so else so in
      let so := if negb first && is_virtual_key (ek e) then update_stage dev cs e so else so in
      let '(s, out) := feed_stage (negb first) dev cs buf so in
      let '(r', out') := update_loop false e dev out r in
      ((cs, s) :: r', out')
  end.

(** MultiStage.cpp:81-117.  The buffer is moved out; the moved-from vector is taken to
    be empty. *)
Definition m_update (e : event) (dev : Z) (m : mstage) : mstage * sequence :=
  let '(st, out) := update_loop true e dev (m_buf m ++ [e]) (m_stages m) in
  (MS st (m_client m) [], out).

(** MultiStage.cpp:119-122 *)
Definition m_reuse_buffer (m : mstage) : mstage := MS (m_stages m) (m_client m) [].

(** MultiStage.cpp:124-127 *)
Definition m_validate_state (is_down : key -> bool) (m : mstage) : mstage :=
  match m_stages m with
  | [] => m
  | (cs, s) :: r => MS ((cs, validate_state is_down s) :: r) (m_client m) (m_buf m)
  end.

(** MultiStage.cpp:129-133 *)
Definition m_should_exit (m : mstage) : bool :=
  match m_stages m with
  | [] => false
  | (_, s) :: _ => should_exit s
  end.

(** server/ClientPort.cpp:25-81 read_stages and test.cpp:151-179: a context which
    begins a stage starts a new one unless no context preceded it. *)
Fixpoint split_stages (l : list (bool * context)) (cur : list context)
  : list (list context) :=
  match l with
  | [] => match cur with [] => [] | _ => [cur] end
  | (b, c) :: r =>
      match b, cur with
      | true, _ :: _ => cur :: split_stages r [c]
      | _, _ => split_stages r (cur ++ [c])
      end
  end.
