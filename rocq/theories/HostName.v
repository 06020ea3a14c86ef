(** Model of how a name of a socket is taken and given back, src/common/Host.cpp:37-50, 73-94,
    100-137: listen, shutdown and set_unix_domain_socket_path, and of what the kernel does with
    the name.  There is one name, which any number of processes use; how connections are accepted
    is in Host.v. *)
From Coq Require Import List Arith Bool.
From Verif Require Import Base.
Import ListNotations.

(** Sockets are numbered as they are created.  [nm_bound] is the socket the name leads to: on
    Linux the name is in the abstract namespace and gone with the socket, elsewhere it is a
    file which stays until it is removed. *)
Record names : Type := NM {
  nm_next : nat;
  nm_owner : nat -> nat;              (* the process which created a socket *)
  nm_open : nat -> bool;
  nm_listens : nat -> bool;           (* ::listen was called *)
  nm_bound : option nat;
  nm_fd : nat -> option nat           (* m_listen_fd of each process *)
}.
Definition init_names : names := NM 0 (fun _ => 0) (fun _ => false) (fun _ => false) None (fun _ => None).
Definition upd {A} (f : nat -> A) (k : nat) (x : A) (j : nat) : A := if j =? k then x else f j.

Inductive nevent : Type :=
| NListen (p : nat)        (* Host::listen *)
| NShutdown (p : nat)      (* Host::shutdown, also by the destructor, 100-102 *)
| NDies (p : nat).         (* the process is killed *)

Section Platform.
Variable abstract : bool.                       (* __linux *)
Variable may_unlink : nat -> nat -> bool.       (* whether a process may remove the file another one created *)
Variable socket_ok listen_ok : nat -> bool.     (* of the socket with the number *)

(** ::unlink, DeleteFileA: Host.cpp:48-49, 88-89; on Linux nothing (75-79) *)
Definition unlink_name (p : nat) (n : names) : names :=
  if abstract then n
  else match nm_bound n with
       | Some k => if may_unlink p (nm_owner n k) then NM (nm_next n) (nm_owner n) (nm_open n) (nm_listens n) None (nm_fd n) else n
       | None => n
       end.
(** ::close: an abstract name goes with its socket *)
Definition close_socket (k : nat) (n : names) : names :=
  NM (nm_next n) (nm_owner n) (upd (nm_open n) k false) (nm_listens n)
     (match nm_bound n with
      | Some j => if abstract && (j =? k) then None else Some j
      | None => None
      end) (nm_fd n).

(** Host.cpp:104-127 *)
Definition host_listen (p : nat) (n : names) : names * bool :=
  let k := nm_next n in
  if negb (socket_ok k) then (NM (S k) (nm_owner n) (nm_open n) (nm_listens n) (nm_bound n) (upd (nm_fd n) p None), false)
  else
    let n := NM (S k) (upd (nm_owner n) k p) (upd (nm_open n) k true) (upd (nm_listens n) k false) (nm_bound n) (upd (nm_fd n) p (Some k)) in
    let n := unlink_name p n in
    match nm_bound n with
    | Some _ => (n, false)                      (* EADDRINUSE *)
    | None =>
        let n := NM (nm_next n) (nm_owner n) (nm_open n) (nm_listens n) (Some k) (nm_fd n) in
        if negb (listen_ok k) then (n, false)
        else (NM (nm_next n) (nm_owner n) (nm_open n) (upd (nm_listens n) k true) (nm_bound n) (nm_fd n), true)
    end.

(** Host.cpp:129-137 *)
Definition host_shutdown (p : nat) (n : names) : names :=
  match nm_fd n p with
  | None => n
  | Some k =>
      let n := unlink_name p (close_socket k n) in
      NM (nm_next n) (nm_owner n) (nm_open n) (nm_listens n) (nm_bound n) (upd (nm_fd n) p None)
  end.

(** The kernel closes the sockets of a process which is killed. *)
Definition process_dies (p : nat) (n : names) : names :=
  let n := fold_left (fun n k => if nm_owner n k =? p then close_socket k n else n) (seq 0 (nm_next n)) n in
  NM (nm_next n) (nm_owner n) (nm_open n) (nm_listens n) (nm_bound n) (upd (nm_fd n) p None).

Definition name_step (x : nevent) (n : names) : names :=
  match x with
  | NListen p => fst (host_listen p n)
  | NShutdown p => host_shutdown p n
  | NDies p => process_dies p n
  end.
Definition name_run (l : list nevent) (n : names) : names := fold_left (fun n x => name_step x n) l n.
End Platform.

(** ::connect, Host.cpp:181-182: the process which is reached *)
Definition reached (n : names) : option nat :=
  match nm_bound n with
  | Some k => if nm_open n k && nm_listens n k then Some (nm_owner n k) else None
  | None => None
  end.
