(** Model of the messages between client, server and keymapperctl:
    src/common/Connection.h, src/common/Connection.cpp, src/common/MessageType.h,
    src/client/ServerPort.cpp, src/server/ClientPort.cpp, src/client/ControlPort.cpp and
    src/control/ClientPort.cpp.

    A byte is an [ascii] (256 values).  The machine is little endian; both ends run on
    one machine and copy objects byte by byte.  Allocations succeed, an invalid regular
    expression in a received filter (std::regex throws) is not modelled. *)
From Coq Require Import String Ascii List Arith NArith ZArith Bool.
From Verif Require Import Base Key Text Match Stage Config.
Import ListNotations.
Local Open Scope N_scope.

Definition bytes := list ascii.

(** The object representation of an unsigned integer of [n] bytes. *)
Fixpoint le (n : nat) (v : N) : bytes :=
  match n with
  | O => []
  | S m => ascii_of_N (v mod 256) :: le m (v / 256)
  end.
Fixpoint of_le (b : bytes) : N :=
  match b with
  | [] => 0
  | c :: r => N_of_ascii c + 256 * of_le r
  end.

(** static_cast between int32_t and uint32_t *)
Definition u32_of_int (z : Z) : N := Z.to_N (z mod 2 ^ 32).
Definition int_of_u32 (n : N) : Z :=
  if n <? 2 ^ 31 then Z.of_N n else (Z.of_N n - 2 ^ 32)%Z.

(** * Serializer, Connection.h:21-42.  Each write appends to the buffer; a writer is
    the bytes it appends. *)

Definition write_u8 (v : N) : bytes := le 1 v.
Definition write_u16 (v : N) : bytes := le 2 v.
Definition write_u32 (v : N) : bytes := le 4 v.
Definition write_i32 (z : Z) : bytes := le 4 (u32_of_int z).
Definition write_bool (b : bool) : bytes := le 1 (if b then 1 else 0).
(** Connection.h:34-37 *)
Definition write_string (t : text) : bytes := write_u32 (N.of_nat (length t)) ++ t.
(** A count followed by the elements, e.g. ServerPort.cpp:6-10. *)
Definition write_list {A} (f : A -> bytes) (l : list A) : bytes :=
  write_u32 (N.of_nat (length l)) ++ flat_map f l.

(** * Deserializer, Connection.h:44-80.  [r_it] is the position of the iterator.
    Not in the code: [r_ub], bytes outside of the buffer were accessed; [r_bad], a bool
    got a value other than 0 and 1 (using it is undefined); [r_short], some read was
    refused. *)
Record reader : Type := Rd {
  r_buf : bytes; r_it : nat; r_ub : bool; r_bad : bool; r_short : bool }.

Definition rd (A : Type) : Type := reader -> A * reader.
Definition rret {A} (a : A) : rd A := fun d => (a, d).
Definition rbind {A B} (m : rd A) (f : A -> rd B) : rd B :=
  fun d => let '(a, d') := m d in f a d'.
Notation "'get' x <- m ;; f" := (rbind m (fun x => f))
  (at level 200, x pattern, m at level 100, right associativity).

(** Connection.h:72-74 *)
Definition can_read (n : nat) (d : reader) : bool :=
  Nat.leb (r_it d + n) (length (r_buf d)).

(** Connection.h:46-51; [init] is the content of the object before. *)
Definition read_raw (n : nat) (init : bytes) : rd bytes := fun d =>
  if negb (Nat.eqb n 0) && can_read n d
  then (firstn n (skipn (r_it d) (r_buf d)),
        Rd (r_buf d) (r_it d + n)
           (r_ub d || Nat.ltb (length (r_buf d)) (r_it d + n)) (r_bad d) (r_short d))
  else (init, Rd (r_buf d) (r_it d) (r_ub d) (r_bad d) (r_short d || negb (Nat.eqb n 0))).

(** Connection.h:53-63 *)
Definition zeros (n : nat) : bytes := repeat zero n.
Definition read_uint (n : nat) : rd N := get b <- read_raw n (zeros n) ;; rret (of_le b).
Definition read_u32 : rd N := read_uint 4.
Definition read_i32 : rd Z := get n <- read_uint 4 ;; rret (int_of_u32 n).
Definition set_bad : rd unit :=
  fun d => (tt, Rd (r_buf d) (r_it d) (r_ub d) true (r_short d)).
Definition read_bool : rd bool :=
  get n <- read_uint 1 ;;
  get _ <- (if 1 <? n then set_bad else rret tt) ;;
  rret (negb (n =? 0)).

(** Connection.h:65-70 *)
Definition read_string : rd text :=
  get n <- read_u32 ;;
  read_raw (N.to_nat n) (repeat " "%char (N.to_nat n)).

(** A loop over [n] elements. *)
Fixpoint read_times {A} (n : nat) (f : rd A) : rd (list A) :=
  match n with
  | O => rret []
  | S m => get a <- f ;; get l <- read_times m f ;; rret (a :: l)
  end.
Definition read_list {A} (f : rd A) : rd (list A) :=
  get n <- read_u32 ;; read_times (N.to_nat n) f.

(** * Messages *)

(** MessageType.h:5-19 *)
Definition t_configuration : N := 1.
Definition t_active_contexts : N := 2.
Definition t_validate_state : N := 3.
Definition t_execute_action : N := 4.
Definition t_virtual_key_state : N := 5.
Definition t_get_virtual_key_state : N := 6.
Definition t_set_virtual_key_state : N := 7.
Definition t_request_toggle_notification : N := 8.
Definition t_set_instance_id : N := 9.
Definition t_set_config_file : N := 10.
Definition t_next_key_info : N := 11.
Definition t_inject_input : N := 12.
Definition t_inject_output : N := 13.

(** The value of a KeyState, KeyEvent.h:14-30. *)
Definition state_code (s : kstate) : N :=
  match s with
  | Up => 0 | Down => 1 | Not => 2 | UpAsync => 3 | DownAsync => 4 | NoMightMatch => 5
  | OutputOnRelease => 6 | DownMatched => 7 | UpMatched => 8 | NotTimeoutUpDown => 9
  end.

(** A KeyEvent (KeyEvent.h:32-38) as received: the state can be any value of its four
    bits.  Bit fields are allocated from the least significant bit. *)
Record wevent : Type := WE { we_key : N; we_state : N; we_value : N }.
Definition wire (e : event) : wevent := WE (ek e) (state_code (es e)) (ev e).
Definition write_event (e : event) : bytes :=
  write_u16 (ek e) ++ write_u16 (state_code (es e) + 16 * ev e).
Definition event_of_bytes (b : bytes) : wevent :=
  let k := of_le (firstn 2 b) in
  let n := of_le (skipn 2 b) in
  WE k (n mod 16) (n / 16).
Definition read_event : rd wevent :=
  get b <- read_raw 4 (zeros 4) ;; rret (event_of_bytes b).

(** ServerPort.cpp:6-10, server/ClientPort.cpp:6-14 *)
Definition write_key_sequence (l : sequence) : bytes := write_list write_event l.
Definition read_key_sequence : rd (list wevent) := read_list read_event.

(** ServerPort.cpp:12-15, server/ClientPort.cpp:16-23 *)
Definition write_filter (f : filter) : bytes :=
  write_string (f_string f) ++ write_bool (f_invert f).
Definition read_filter : rd filter :=
  get s <- read_string ;;
  get i <- read_bool ;;
  rret (Filter s (is_regex s) i).

(** ServerPort.cpp:17-56; one context *)
Definition write_context (c : cctx) : bytes :=
  write_bool (cc_stage c)
  ++ write_list (fun i => write_key_sequence (in_seq i) ++ write_i32 (in_out i)) (cc_inputs c)
  ++ write_list write_key_sequence (cc_outputs c)
  ++ write_list (fun m => write_key_sequence (cm_out m) ++ write_i32 (cm_idx m)) (cc_commands c)
  ++ write_filter (cc_dev c)
  ++ write_filter (cc_devid c)
  ++ write_key_sequence (cc_mods c)
  ++ write_bool (cc_inv c)
  ++ write_bool (cc_fall c).
Definition write_contexts (l : list cctx) : bytes := write_list write_context l.

(** Stage::Context (Stage.h:28-38) as received. *)
Record wcontext : Type := WC {
  wc_inputs : list (list wevent * Z);
  wc_outputs : list (list wevent);
  wc_commands : list (list wevent * Z);
  wc_dev : filter;
  wc_devid : filter;
  wc_mods : list wevent;
  wc_inv : bool;
  wc_fall : bool
}.

(** server/ClientPort.cpp:38-74; the rest of the loop body of read_stages *)
Definition read_indexed : rd (list wevent * Z) :=
  get s <- read_key_sequence ;; get i <- read_i32 ;; rret (s, i).
Definition read_context : rd wcontext :=
  get inputs <- read_list read_indexed ;;
  get outputs <- read_list read_key_sequence ;;
  get commands <- read_list read_indexed ;;
  get dev <- read_filter ;;
  get devid <- read_filter ;;
  get mods <- read_key_sequence ;;
  get inv <- read_bool ;;
  get fall <- read_bool ;;
  rret (WC inputs outputs commands dev devid mods inv fall).

(** server/ClientPort.cpp:29-78; [cur] are the contexts of the unfinished stage. *)
Fixpoint stages_loop (n : nat) (stages : list (list wcontext)) (cur : list wcontext)
  : rd (list (list wcontext)) :=
  match n with
  | O => rret (match cur with [] => stages | _ => stages ++ [cur] end)
  | S m =>
      get begin_stage <- read_bool ;;
      get c <- read_context ;;
      match begin_stage, cur with
      | true, _ :: _ => stages_loop m (stages ++ [cur]) [c]
      | _, _ => stages_loop m stages (cur ++ [c])
      end
  end.
(** server/ClientPort.cpp:25-81 *)
Definition read_stages : rd (list (list wcontext)) :=
  get n <- read_u32 ;; stages_loop (N.to_nat n) [] [].

(** ServerPort.cpp:58-65, server/ClientPort.cpp:83-92 *)
Definition write_grab_filter (f : filter * bool) : bytes :=
  write_filter (fst f) ++ write_bool (snd f).
Definition read_grab_filter : rd (filter * bool) :=
  get f <- read_filter ;; get b <- read_bool ;; rret (f, b).

(** ServerPort.cpp:74-78, server/ClientPort.cpp:102-107 *)
Definition write_active_contexts (l : list Z) : bytes := write_list write_i32 l.
Definition read_active_contexts : rd (list Z) := read_list read_i32.

(** ** From the client to the server, ServerPort.cpp:94-142 *)
Inductive smsg : Type :=
| SConfig (c : config)
| SActive (l : list Z)
| SValidate
| SVirtual (k : key) (s : kstate)
| SNextKey
| SInjectInput (l : sequence)
| SInjectOutput (l : sequence).

Definition write_smsg (m : smsg) : bytes :=
  match m with
  | SConfig c =>
      write_u8 t_configuration ++ write_list write_grab_filter (cfg_grab c)
      ++ write_contexts (cfg_contexts c) ++ write_list write_string (cfg_directives c)
  | SActive l => write_u8 t_active_contexts ++ write_active_contexts l
  | SValidate => write_u8 t_validate_state
  | SVirtual k s => write_u8 t_set_virtual_key_state ++ write_u16 k ++ write_u16 (state_code s)
  | SNextKey => write_u8 t_next_key_info
  | SInjectInput l => write_u8 t_inject_input ++ write_key_sequence l
  | SInjectOutput l => write_u8 t_inject_output ++ write_key_sequence l
  end.

(** Calls of the server's message handler, server/ClientPort.cpp:159-199. *)
Inductive scall : Type :=
| CGrabFilters (l : list (filter * bool))
| CConfiguration (l : list (list wcontext))
| CDirectives (l : list text)
| CActive (l : list Z)
| CVirtual (k st : N)
| CValidate
| CNextKey
| CInjectInput (l : list wevent)
| CInjectOutput (l : list wevent).

Definition read_smsg : rd (list scall) :=
  get t <- read_uint 1 ;;
  if t =? t_configuration then
    get g <- read_list read_grab_filter ;;
    get s <- read_stages ;;
    get d <- read_list read_string ;;
    rret [CGrabFilters g; CConfiguration s; CDirectives d]
  else if t =? t_active_contexts then get l <- read_active_contexts ;; rret [CActive l]
  else if t =? t_set_virtual_key_state then
    get k <- read_uint 2 ;; get s <- read_uint 2 ;; rret [CVirtual k s]
  else if t =? t_validate_state then rret [CValidate]
  else if t =? t_next_key_info then rret [CNextKey]
  else if t =? t_inject_input then get l <- read_key_sequence ;; rret [CInjectInput l]
  else if t =? t_inject_output then get l <- read_key_sequence ;; rret [CInjectOutput l]
  else rret [].

(** ** From the server to the client, server/ClientPort.cpp:132-157, ServerPort.cpp:144-169 *)
Inductive cmsg : Type :=
| UAction (i : Z)
| UVirtual (k : key) (s : kstate)
| UNextKeyInfo (k : key) (name id : text).

Definition write_cmsg (m : cmsg) : bytes :=
  match m with
  | UAction i => write_u8 t_execute_action ++ write_i32 i
  | UVirtual k s => write_u8 t_virtual_key_state ++ write_u16 k ++ write_u16 (state_code s)
  | UNextKeyInfo k n i =>
      write_u8 t_next_key_info ++ write_u16 k ++ write_string n ++ write_string i
  end.

Inductive ccall : Type :=
| DAction (i : Z)
| DVirtual (k st : N)
| DNextKeyInfo (k : N) (name id : text).

Definition read_cmsg : rd (list ccall) :=
  get t <- read_uint 1 ;;
  if t =? t_execute_action then get i <- read_i32 ;; rret [DAction i]
  else if t =? t_virtual_key_state then
    get k <- read_uint 2 ;; get s <- read_uint 2 ;; rret [DVirtual k s]
  else if t =? t_next_key_info then
    get k <- read_uint 2 ;; get n <- read_string ;; get i <- read_string ;;
    rret [DNextKeyInfo k n i]
  else rret [].

(** ** From keymapperctl to the client, control/ClientPort.cpp:13-79,
    ControlPort.cpp:151-204.  Requests of the client's handler in terms of the strings
    sent; the lookup of key names follows in the handler. *)
Inductive rmsg : Type :=
| RGet (name : text)
| RSet (name : text) (s : kstate)
| RNotify (name : text)
| RInstance (id : text)
| RConfig (filename : text)
| RNextKey
| RInjectInput (t : text)
| RInjectOutput (t : text)
| RType (t : text).

Definition write_rmsg (m : rmsg) : bytes :=
  match m with
  | RGet n => write_u8 t_get_virtual_key_state ++ write_string n
  | RSet n s => write_u8 t_set_virtual_key_state ++ write_string n ++ write_u16 (state_code s)
  | RNotify n => write_u8 t_request_toggle_notification ++ write_string n
  | RInstance i => write_u8 t_set_instance_id ++ write_string i
  | RConfig f => write_u8 t_set_config_file ++ write_string f
  | RNextKey => write_u8 t_next_key_info
  | RInjectInput t => write_u8 t_inject_input ++ write_u32 (N.of_nat (length t)) ++ t
  | RInjectOutput t => write_u8 t_inject_output ++ write_u32 (N.of_nat (length t)) ++ t
  | RType t =>
      write_u8 t_inject_output ++ write_u32 (N.of_nat (length t + 2)) ++ [quote2] ++ t ++ [quote2]
  end.

Inductive rcall : Type :=
| QGet (name : text)
| QSet (name : text) (st : N)
| QNotify (name : text)
| QInstance (id : text)
| QConfig (filename : text)
| QNextKey
| QInjectInput (t : text)
| QInjectOutput (t : text).

Definition read_rmsg : rd (list rcall) :=
  get t <- read_uint 1 ;;
  if t =? t_get_virtual_key_state then get n <- read_string ;; rret [QGet n]
  else if t =? t_set_virtual_key_state then
    get n <- read_string ;; get s <- read_uint 2 ;; rret [QSet n s]
  else if t =? t_request_toggle_notification then get n <- read_string ;; rret [QNotify n]
  else if t =? t_set_instance_id then get i <- read_string ;; rret [QInstance i]
  else if t =? t_set_config_file then get f <- read_string ;; rret [QConfig f]
  else if t =? t_next_key_info then rret [QNextKey]
  else if t =? t_inject_input then get s <- read_string ;; rret [QInjectInput s]
  else if t =? t_inject_output then get s <- read_string ;; rret [QInjectOutput s]
  else rret [].

(** ** From the client to keymapperctl, ControlPort.cpp:77-83, 138-149,
    control/ClientPort.cpp:81-112 *)
Inductive amsg : Type :=
| AVirtual (k : key) (s : kstate)
| ANextKeyInfo (t : text).

Definition write_amsg (m : amsg) : bytes :=
  match m with
  | AVirtual k s => write_u8 t_virtual_key_state ++ write_u16 k ++ write_u16 (state_code s)
  | ANextKeyInfo t => write_u8 t_next_key_info ++ write_string t
  end.

(** What read_virtual_key_state (key and state; the key is ignored by the caller) and
    read_next_key_info hand on. *)
Definition read_answer : rd (list (N * N)) :=
  get t <- read_uint 1 ;;
  if t =? t_virtual_key_state then
    get k <- read_uint 2 ;; get s <- read_uint 2 ;; rret [(k, s)]
  else rret [].
Definition read_key_info : rd (list text) :=
  get t <- read_uint 1 ;;
  if t =? t_next_key_info then get s <- read_string ;; rret [s]
  else rret [].

(** * The connection *)

(** What a call of ::send does: it takes (at most) [n] bytes, or fails. *)
Inductive ksend : Type := SSent (n : nat) | SAgain | SIntr | SFail.

(** Connection.cpp:79-91.  Result: the return value (None: has not returned yet, the
    script is over), the bytes handed to the kernel and the remaining script.  Buffers are
    shorter than 2^31 bytes (the length is cast to int). *)
Fixpoint send_loop (k : list ksend) (b : bytes) : option bool * bytes * list ksend :=
  match b with
  | [] => (Some true, [], k)
  | _ =>
      match k with
      | [] => (None, [], [])
      | SAgain :: r | SIntr :: r => send_loop r b
      | SFail :: r => (Some false, [], r)
      | SSent n :: r =>
          if Nat.eqb n 0 then (Some false, [], r)
          else let '(res, out, r') := send_loop r (skipn n b) in
               (res, firstn n b ++ out, r')
      end
  end.

(** Connection.h:105-116 *)
Definition send_message (k : list ksend) (payload : bytes) : option bool * bytes * list ksend :=
  let '(res, out, k) := send_loop k (write_u32 (N.of_nat (length payload))) in
  match res with
  | Some true => let '(res, out', k) := send_loop k payload in (res, out ++ out', k)
  | _ => (res, out, k)
  end.

(** What the socket has in store for calls of ::recv, in order: bytes, a would-block or
    an interrupted call, the end of the stream or an error.  A call takes at most as many
    bytes as asked for; when the script is over calls would block. *)
Inductive krecv : Type := KData (b : bytes) | KAgain | KIntr | KClosed | KError.

(** Connection.cpp:93-114; None is -1. *)
Fixpoint recv_some (len : nat) (k : list krecv) : option bytes * list krecv :=
  match len with
  | O => (Some [], k)
  | _ =>
      match k with
      | [] => (Some [], [])
      | KAgain :: r => (Some [], r)
      | KIntr :: r => recv_some len r
      | KClosed :: _ => (None, k)
      | KError :: r => (None, r)
      | KData b :: r =>
          if Nat.leb (length b) len
          then let '(x, r') := recv_some (len - length b) r in (option_map (app b) x, r')
          else (Some (firstn len b), KData (skipn len b) :: r)
      end
  end.

(** Connection.cpp:116-131: [data] are the first [pos] bytes of the buffer, [cap] its
    size. *)
Inductive recv_result : Type := RecvOk (data : bytes) | RecvFailed | RecvFuel.
Fixpoint recv_loop (fuel : nat) (data : bytes) (cap : nat) (k : list krecv)
  : recv_result * list krecv :=
  match fuel with
  | O => (RecvFuel, k)
  | S f =>
      let cap := if Nat.eqb (length data) cap then (cap + 1024)%nat else cap in
      match recv_some (cap - length data) k with
      | (None, k) => (RecvFailed, k)
      | (Some [], k) => (RecvOk data, k)
      | (Some b, k) => recv_loop f (data ++ b) cap k
      end
  end.
Definition pending_bytes (k : list krecv) : nat :=
  fold_right (fun x n => match x with KData b => (length b + n)%nat | _ => n end) 0%nat k.
Definition recv_all (data : bytes) (k : list krecv) : recv_result * list krecv :=
  recv_loop (S (pending_bytes k)) data (length data) k.

Section Messages.
Context {A : Type}.
(** The function which is called for each message. *)
Variable deserialize : rd (list A).

(** Connection.h:130-142.  Result: the return value (None: the model ran out of fuel),
    what the messages were turned into, and the reader. *)
Fixpoint messages_loop (fuel : nat) (d : reader) : option bool * list A * reader :=
  match fuel with
  | O => (None, [], d)
  | S f =>
      if can_read 4 d then
        let '(n, d1) := read_u32 d in
        let size := N.to_nat n in
        if negb (can_read size d1)
        then (Some true, [], Rd (r_buf d1) (r_it d1 - 4) (r_ub d1) (r_bad d1) (r_short d1))
        else
          let '(a, d2) := deserialize d1 in
          if negb (Nat.eqb (r_it d2) (r_it d1 + size)) then (Some false, a, d2)
          else let '(res, l, d3) := messages_loop f d2 in (res, a ++ l, d3)
      else (Some true, [], d)
  end.

(** Connection.h:118-145 without the waiting (Connection.cpp:75-77, 30-42).  [buf] is
    what the previous call left in m_deserializer.buffer. *)
Record read_result : Type := RR {
  rr_ok : option bool;      (* the return value; None: out of fuel *)
  rr_handled : list A;
  rr_buf : bytes;           (* m_deserializer.buffer *)
  rr_socket : list krecv;
  rr_ub : bool;             (* bytes outside of the buffer were accessed *)
  rr_bad : bool;            (* some bool got a value other than 0 and 1 *)
  rr_short : bool           (* some read was refused *)
}.
Definition read_messages (buf : bytes) (k : list krecv) : read_result :=
  match recv_all buf k with
  | (RecvFuel, k) => RR None [] buf k false false false
  | (RecvFailed, k) => RR (Some false) [] buf k false false false
  | (RecvOk b, k) =>
      let '(res, l, d) := messages_loop (S (length b)) (Rd b 0 false false false) in
      RR res l (match res with Some true => skipn (r_it d) b | _ => b end) k (r_ub d) (r_bad d) (r_short d)
  end.

(** Calling read_messages [n] times, as the main loops do, until it fails. *)
Fixpoint read_many (n : nat) (buf : bytes) (k : list krecv) : read_result :=
  match n with
  | O => RR (Some true) [] buf k false false false
  | S m =>
      let r := read_messages buf k in
      match rr_ok r with
      | Some true =>
          let r' := read_many m (rr_buf r) (rr_socket r) in
          RR (rr_ok r') (rr_handled r ++ rr_handled r') (rr_buf r') (rr_socket r')
             (rr_ub r || rr_ub r') (rr_bad r || rr_bad r') (rr_short r || rr_short r')
      | _ => r
      end
  end.
End Messages.
Arguments RR {A}. Arguments rr_ok {A}. Arguments rr_handled {A}. Arguments rr_buf {A}.
Arguments rr_socket {A}. Arguments rr_ub {A}. Arguments rr_bad {A}. Arguments rr_short {A}.
