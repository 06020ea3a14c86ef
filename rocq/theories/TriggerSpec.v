(** Specification of what a mapping makes of the events which complete it (C113). *)
From Coq Require Import List NArith ZArith Bool.
From Verif Require Import Base Key Match Stage StageSpec StageRoute.
Import ListNotations.
Local Open Scope N_scope.

(** The mappings which can be used are looked at in their order: contexts which are active
    and accept the device, their inputs as written.  The first which does not reject the
    events decides. *)
Definition rejects (sq : sequence) (x : nat * context * input) : bool :=
  match match_keys (in_seq (snd x)) sq with Some (NoMatch, _, _) => true | _ => false end.
Definition decider (cs : list context) (act : list nat) (dev : Z) (sq : sequence) :=
  find (fun x => negb (rejects sq x)) (candidates cs act dev).

(** It might still match, and does not wait for a timeout. *)
Definition waits (cs : list context) (act : list nat) (dev : Z) (sq : sequence) : Prop :=
  exists x anys, decider cs act dev sq = Some x /\ match_keys (in_seq (snd x)) sq = Some (MightMatch, anys, None).
(** It matches and has the output [o]. *)
Definition fires (cs : list context) (act : list nat) (dev : Z) (sq o : sequence) : Prop :=
  exists ci c i anys t r, decider cs act dev sq = Some (ci, c, i) /\
    match_keys (in_seq i) sq = Some (Matched, anys, t) /\ find_output cs act ci c (in_out i) = LFound r o.

(** Nothing is pressed, held back or pending. *)
Record at_rest (cs : list context) (s : state) : Prop := {
  ar_seq : s_seq s = [];
  ar_might : s_might s = false;
  ar_hist : s_hist s = [];
  ar_onrel : s_onrel s = [];
  ar_down : s_down s = [];
  ar_timeout : s_timeout s = None;
  ar_buf : s_buf s = [];
  ar_reapplied : s_reapplied s = false;
  ar_active : eval_active cs [] (s_client s) [] = Some (s_active s);
  ar_bounds : Forall (fun i => (i < length cs)%nat) (s_active s)
}.

(** Contexts which do not depend on modifiers, and no inputs with `?` *)
Definition steady (cs : list context) : Prop :=
  Forall (fun c => cx_mods c = []) cs /\
  Forall (fun c => Forall (fun i => is_nmm_mapping (in_seq i) = false) (cx_inputs c)) cs.

(** Keys are pressed and released by turns, starting with a press. *)
Definition typing_keys (l : sequence) : Prop :=
  alternates l /\ Forall (fun e => ek e <> k_timeout /\ is_virtual_key (ek e) = false) l.

(** An output of presses and releases, possibly after the !Any of a string *)
Definition shown (o : sequence) : sequence :=
  match o with
  | e :: r => if (ek e =? k_any) && kstate_eqb (es e) Not then r else o
  | [] => []
  end.
Definition plain_output (o : sequence) : Prop :=
  alternates (shown o) /\ Forall (fun e => ek e <> k_any /\ ek e <> k_timeout) (shown o).

Definition fed (dev : Z) (l : sequence) : list call := map (fun e => CInput e dev) l.
