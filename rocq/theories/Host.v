(** How two processes get connected: [Host::accept] and [Host::connect]
    (src/common/Host.cpp:139-202), and what the server makes of it
    (src/server/unix/main.cpp:174-184).

    A host accepts one connection after the other; any number of peers connect to it, in
    any interleaving.  [size_t] is eight bytes.  What the hash of a version is, is given.

    Simplified: creating sockets does not fail, ::send takes all bytes at once or is cut in
    any way (Connection.cpp:78-91, the loop goes on until all are sent), and only fails
    when the other side was closed. *)
From Coq Require Import List Arith NArith Bool Ascii.
From Verif Require Import Base Text Serial.
Import ListNotations.

(** sizeof(size_t) *)
Definition hash_size : nat := 8.

(** Where the connection of a peer is, as seen by the host *)
Inductive phase : Type :=
| Away                (* not connected, Host.cpp:178-199 retries *)
| Queued              (* ::connect returned, ::accept did not *)
| Reading             (* the host reads the version, Host.cpp:148-150 *)
| Accepted            (* Host.cpp:158-162 *)
| Refused             (* the connection was closed, Host.cpp:150-155 *)
| GaveUp.             (* the timeout of connect, Host.cpp:195-196, 201 *)

Record peer : Type := Pe {
  pe_left : bytes;            (* what it has still to send *)
  pe_up : bytes;              (* sent, but not read *)
  pe_got : bytes;             (* what the host read *)
  pe_phase : phase;
  pe_closed : bool;           (* the peer closed its side *)
  pe_down : bytes;            (* sent by the host, but not read *)
  pe_result : option bool     (* what its [connect] returned: a connection or none *)
}.

Record host : Type := Ho {
  h_peers : list peer;
  h_queue : list nat;         (* ::listen's queue *)
  h_current : option nat;     (* whose version is being read *)
  h_mismatch : bool           (* m_version_mismatch *)
}.

(** A peer which is about to call [Host::connect]: it sends the hash of its version
    (Host.cpp:184), then what its caller sends.  Other peers send something else.  When
    bytes are sent is not restricted, so all this may be sent before there is an answer. *)
Definition new_peer (sends : bytes) : peer := Pe sends [] [] Away false [] None.
Definition start (l : list bytes) : host := Ho (map new_peer l) [] None false.

Inductive move : Type :=
| MConnect (i : nat)            (* ::connect succeeds, Host.cpp:179-181 *)
| MGiveUp (i : nat)             (* the time is up, Host.cpp:195-196 *)
| MSend (i n : nat)             (* n bytes are sent *)
| MClose (i : nat)              (* the process ends or disconnects *)
| MAccept                       (* ::accept, Host.cpp:143-146 *)
| MRecv (n : nat)               (* ::recv returns n bytes, Connection.cpp:93-114 *)
| MEnd                          (* ::recv returns zero *)
| MWouldBlock                   (* ::recv fails with EWOULDBLOCK *)
| MAnswer (i : nat).            (* [connect] returns: the answer was read, or
                                   sending or reading failed, Host.cpp:184-193 *)

Definition set_peer (i : nat) (p : peer) (h : host) : host :=
  Ho (update_at i (fun _ => p) (h_peers h)) (h_queue h) (h_current h) (h_mismatch h).
Definition with_phase (p : peer) (ph : phase) : peer :=
  Pe (pe_left p) (pe_up p) (pe_got p) ph (pe_closed p) (pe_down p) (pe_result p).

Section Host.
Variable own : bytes.        (* get_version_hash() of the host, Host.cpp:5-11 *)
(** Whether an accepted socket is non-blocking like the listening one (Host.cpp:125): so it
    is on BSD, macOS and Windows, but not on Linux. *)
Variable inherits : bool.

(** Host.cpp:154-162: what happens when the version was read *)
Definition decide (i : nat) (p : peer) (h : host) : host :=
  let mismatch := negb (if list_eq_dec ascii_dec (pe_got p) own then true else false) in
  let answered := negb mismatch && negb (pe_closed p) in
  let p' := Pe (pe_left p) (pe_up p) (pe_got p) (if answered then Accepted else Refused) (pe_closed p)
               (if answered then pe_down p ++ write_bool true else pe_down p) (pe_result p) in
  let h' := set_peer i p' h in
  Ho (h_peers h') (h_queue h') None (h_mismatch h' || mismatch).
(** Host.cpp:151-152 *)
Definition refuse (i : nat) (p : peer) (h : host) : host :=
  let h' := set_peer i (with_phase p Refused) h in
  Ho (h_peers h') (h_queue h') None (h_mismatch h').

(** One move; [None] when it is not possible *)
Definition move_run (m : move) (h : host) : option host :=
  match m with
  | MConnect i =>
      match nth_error (h_peers h) i with
      | Some (Pe l u g Away false d None) =>
          let h' := set_peer i (Pe l u g Queued false d None) h in
          Some (Ho (h_peers h') (h_queue h' ++ [i]) (h_current h') (h_mismatch h'))
      | _ => None
      end
  | MGiveUp i =>
      match nth_error (h_peers h) i with
      | Some (Pe l u g Away false d None) => Some (set_peer i (Pe l u g GaveUp false d (Some false)) h)
      | _ => None
      end
  | MSend i n =>
      match nth_error (h_peers h) i with
      | Some (Pe l u g ph false d r) =>
          match ph with
          | Queued | Reading | Accepted =>
              if (0 <? n) && (n <=? length l) then
                Some (set_peer i (Pe (skipn n l) (u ++ firstn n l) g ph false d r) h)
              else None
          | _ => None
          end
      | _ => None
      end
  | MClose i =>
      match nth_error (h_peers h) i with
      | Some (Pe l u g ph false d r) =>
          match ph with
          | Away => None
          | _ => Some (set_peer i (Pe l u g ph true d r) h)
          end
      | _ => None
      end
  | MAccept =>
      match h_current h, h_queue h with
      | None, i :: q =>
          match nth_error (h_peers h) i with
          | Some p =>
              let h' := set_peer i (with_phase p Reading) h in
              Some (Ho (h_peers h') q (Some i) (h_mismatch h'))
          | None => None
          end
      | _, _ => None
      end
  | MRecv n =>
      match h_current h with
      | Some i =>
          match nth_error (h_peers h) i with
          | Some (Pe l u g ph c d r) =>
              if (0 <? n) && (n <=? length u) && (length g + n <=? hash_size) then
                let p := Pe l (skipn n u) (g ++ firstn n u) ph c d r in
                if length (pe_got p) =? hash_size then Some (decide i p h) else Some (set_peer i p h)
              else None
          | None => None
          end
      | None => None
      end
  | MEnd =>
      match h_current h with
      | Some i =>
          match nth_error (h_peers h) i with
          | Some p => if pe_closed p && (length (pe_up p) =? 0) then Some (refuse i p h) else None
          | None => None
          end
      | None => None
      end
  | MWouldBlock =>
      match h_current h with
      | Some i =>
          match nth_error (h_peers h) i with
          | Some p => if inherits && (length (pe_up p) =? 0) && negb (pe_closed p) then Some (refuse i p h) else None
          | None => None
          end
      | None => None
      end
  | MAnswer i =>
      match nth_error (h_peers h) i with
      | Some (Pe l u g ph false d None) =>
          match d, ph with
          | c :: d', _ =>
              if hash_size <=? length g + length u then
                Some (set_peer i (Pe l u g ph false d' (Some (negb (N.eqb (N_of_ascii c) 0)))) h)
              else None
          | [], Refused => Some (set_peer i (Pe l u g ph false d (Some false)) h)
          | [], _ => None
          end
      | _ => None
      end
  end.
Fixpoint moves_run (l : list move) (h : host) : option host :=
  match l with
  | [] => Some h
  | m :: r => match move_run m h with Some h' => moves_run r h' | None => None end
  end.

(** server/unix/main.cpp:177-184: the server ends when versions differed. *)
Definition server_ends (h : host) : bool := h_mismatch h && match h_current h with None => true | _ => false end.
End Host.
