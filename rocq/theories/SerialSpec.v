(** Specification of the exchange of messages. *)
From Coq Require Import String Ascii List Arith NArith ZArith Bool.
From Verif Require Import Base Key Text Match Stage Config MultiStage Serial.
Import ListNotations.
Local Open Scope N_scope.

(** What is on the wire: the length of each message in four bytes, lowest first, then the
    message. *)
Definition length_bytes (n : N) : bytes :=
  [ascii_of_N (n mod 256); ascii_of_N (n / 256 mod 256);
   ascii_of_N (n / 65536 mod 256); ascii_of_N (n / 16777216 mod 256)].
Definition frame (p : bytes) : bytes := length_bytes (N.of_nat (length p)) ++ p.
Definition stream (l : list bytes) : bytes := flat_map frame l.

(** The bytes [p] are taken for [a], wherever they stand in a buffer. *)
Definition decodes {A} (f : rd A) (p : bytes) (a : A) : Prop :=
  forall pre post u b s,
    f (Rd (pre ++ p ++ post) (length pre) u b s) =
    (a, Rd (pre ++ p ++ post) (length pre + length p) u b s).

(** The bytes a socket has in store, and that it neither ends nor fails. *)
Fixpoint data (k : list krecv) : bytes :=
  match k with
  | [] => []
  | KData b :: r => b ++ data r
  | _ :: r => data r
  end.
Definition alive (k : list krecv) : Prop :=
  Forall (fun x => match x with KClosed | KError => False | _ => True end) k.
(** How often it runs dry. *)
Definition pauses (k : list krecv) : nat :=
  length (List.filter (fun x => match x with KAgain => true | _ => false end) k).

(** Sending messages one after the other, until one is not sent. *)
Fixpoint send_messages (k : list ksend) (l : list bytes) : option bool * bytes :=
  match l with
  | [] => (Some true, [])
  | p :: r =>
      match send_message k p with
      | (Some true, out, k') => let '(res, out') := send_messages k' r in (res, out ++ out')
      | (res, out, _) => (res, out)
      end
  end.

(** ** Which values fit into a message *)

Definition short {A} (l : list A) : Prop := N.of_nat (length l) < 2 ^ 32.
Definition is_int (z : Z) : Prop := (- 2 ^ 31 <= z < 2 ^ 31)%Z.
Definition is_key (k : key) : Prop := k < 2 ^ 16.
Definition fit_event (e : event) : Prop := is_key (ek e) /\ ev e < 4096.
Definition fit_seq (l : sequence) : Prop := short l /\ Forall fit_event l.
Definition fit_filter (f : filter) : Prop :=
  short (f_string f) /\ f_regex f = is_regex (f_string f).
Definition fit_context (c : cctx) : Prop :=
  short (cc_inputs c) /\ Forall (fun i => fit_seq (in_seq i) /\ is_int (in_out i)) (cc_inputs c) /\
  short (cc_outputs c) /\ Forall fit_seq (cc_outputs c) /\
  short (cc_commands c) /\ Forall (fun m => fit_seq (cm_out m) /\ is_int (cm_idx m)) (cc_commands c) /\
  fit_filter (cc_dev c) /\ fit_filter (cc_devid c) /\ fit_seq (cc_mods c).
Definition fit_config (c : config) : Prop :=
  short (cfg_grab c) /\ Forall (fun f => fit_filter (fst f)) (cfg_grab c) /\
  short (cfg_contexts c) /\ Forall fit_context (cfg_contexts c) /\
  short (cfg_directives c) /\ Forall short (cfg_directives c).
Definition fit_smsg (m : smsg) : Prop :=
  match m with
  | SConfig c => fit_config c
  | SActive l => short l /\ Forall is_int l
  | SVirtual k _ => is_key k
  | SInjectInput l | SInjectOutput l => fit_seq l
  | SValidate | SNextKey => True
  end.
Definition fit_cmsg (m : cmsg) : Prop :=
  match m with
  | UAction i => is_int i
  | UVirtual k _ => is_key k
  | UNextKeyInfo k n i => is_key k /\ short n /\ short i
  end.
Definition fit_rmsg (m : rmsg) : Prop :=
  match m with
  | RGet t | RSet t _ | RNotify t | RInstance t | RConfig t | RInjectInput t | RInjectOutput t =>
      short t
  | RType t => N.of_nat (length t) + 2 < 2 ^ 32
  | RNextKey => True
  end.
Definition fit_amsg (m : amsg) : Prop :=
  match m with
  | AVirtual k _ => is_key k
  | ANextKeyInfo t => short t
  end.

(** ** What the receiver is to be told *)

(** The contexts of the configuration grouped to stages: a context which begins a stage
    ends the stage before it, if there is one. *)
Fixpoint grouped {A} (l : list (bool * A)) (cur : list A) : list (list A) :=
  match l with
  | [] => match cur with [] => [] | _ => [cur] end
  | (b, c) :: r =>
      match b, cur with
      | true, _ :: _ => cur :: grouped r [c]
      | _, _ => grouped r (cur ++ [c])
      end
  end.

(** The part of a context which concerns the server: all but the window filters. *)
Definition server_view (c : cctx) : wcontext :=
  WC (map (fun i => (map wire (in_seq i), in_out i)) (cc_inputs c))
     (map (map wire) (cc_outputs c))
     (map (fun m => (map wire (cm_out m), cm_idx m)) (cc_commands c))
     (cc_dev c) (cc_devid c) (map wire (cc_mods c)) (cc_inv c) (cc_fall c).
Definition server_stages (l : list cctx) : list (list wcontext) :=
  grouped (map (fun c => (cc_stage c, server_view c)) l) [].

Definition scalls (m : smsg) : list scall :=
  match m with
  | SConfig c => [CGrabFilters (cfg_grab c); CConfiguration (server_stages (cfg_contexts c));
                  CDirectives (cfg_directives c)]
  | SActive l => [CActive l]
  | SValidate => [CValidate]
  | SVirtual k s => [CVirtual k (state_code s)]
  | SNextKey => [CNextKey]
  | SInjectInput l => [CInjectInput (map wire l)]
  | SInjectOutput l => [CInjectOutput (map wire l)]
  end.
Definition ccalls (m : cmsg) : list ccall :=
  match m with
  | UAction i => [DAction i]
  | UVirtual k s => [DVirtual k (state_code s)]
  | UNextKeyInfo k n i => [DNextKeyInfo k n i]
  end.
Definition rcalls (m : rmsg) : list rcall :=
  match m with
  | RGet t => [QGet t]
  | RSet t s => [QSet t (state_code s)]
  | RNotify t => [QNotify t]
  | RInstance t => [QInstance t]
  | RConfig t => [QConfig t]
  | RNextKey => [QNextKey]
  | RInjectInput t => [QInjectInput t]
  | RInjectOutput t => [QInjectOutput t]
  | RType t => [QInjectOutput (quote2 :: t ++ [quote2])]
  end.

(** Reading an event off the wire back into the type used by the stages. *)
Definition state_of_code (n : N) : option kstate :=
  nth_error [Up; Down; Not; UpAsync; DownAsync; NoMightMatch; OutputOnRelease; DownMatched;
             UpMatched; NotTimeoutUpDown] (N.to_nat n).
Definition unwire (w : wevent) : option event :=
  match state_of_code (we_state w) with
  | Some s => Some (Ev (we_key w) s (we_value w))
  | None => None
  end.

(** Messages sent with [write] arrive as what they mean, however the kernels of both sides
    cut the bytes: [sends] is what the calls of ::send do, [k] what the socket of the
    receiver has in store, [later] what has not arrived.  At any time exactly the messages
    which arrived as a whole are handled, in order; the buffer holds the part of the next
    one.  Once the reader was called after each pause nothing remains in the socket. *)
Definition arrive {M A} (write : M -> bytes) (read : rd (list A)) (fit : M -> Prop)
  (means : M -> list A) : Prop :=
  forall ms sends res sent k later n,
    Forall (fun m => fit m /\ short (write m)) ms ->
    send_messages sends (map write ms) = (res, sent) ->
    alive k -> data k ++ later = sent ->
    exists i, (i <= length ms)%nat /\
      let r := read_many read n [] k in
      rr_ok r = Some true /\ rr_ub r = false /\ rr_bad r = false /\
      rr_handled r = flat_map means (firstn i ms) /\
      stream (map write (firstn i ms)) ++ rr_buf r ++ data (rr_socket r) = data k /\
      (forall m, nth_error ms i = Some m -> (length (rr_buf r) < length (frame (write m)))%nat) /\
      ((pauses k < n)%nat -> rr_socket r = [] /\
                     (res = Some true -> later = [] -> i = length ms)).

(** ** What is not a message is refused *)

(** Everything ever received, and a first message whose size does not fit its content. *)
Definition refuses_longer {M A} (write : M -> bytes) (read : rd (list A)) (fit : M -> Prop) : Prop :=
  forall m x rest k k', fit m -> x <> [] -> short (write m ++ x) ->
    recv_all [] k = (RecvOk (frame (write m ++ x) ++ rest), k') ->
    rr_ok (read_messages read [] k) = Some false.
Definition refuses_shorter {M A} (write : M -> bytes) (read : rd (list A)) (fit : M -> Prop) : Prop :=
  forall m p x rest k k', fit m -> write m = p ++ x -> x <> [] -> short p ->
    recv_all [] k = (RecvOk (frame p ++ rest), k') ->
    let r := read_messages read [] k in
    rr_ok r = Some false \/ rr_short r = true.
