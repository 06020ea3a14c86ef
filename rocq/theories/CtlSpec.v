(** Specification of what keymapperctl, the client and the connection between them do. *)
From Coq Require Import String Ascii List Arith NArith ZArith Bool.
From Verif Require Import Base Key Text KeyNames ParseSeq Stage Config Serial SerialSpec Client ClientSpec Ctl.
Import ListNotations.
Local Open Scope N_scope.

(** * One connection as seen from the client *)

(** The key a name stands for: a virtual key, or none. *)
Fixpoint alias (n : text) (l : list (text * key)) : key :=
  match l with
  | [] => 0
  | (m, k) :: r => if text_eqb m n then k else alias n r
  end.
Definition named (names : list (text * key)) (n : text) : key :=
  let k := if get_key_by_name n =? 0 then alias n names else get_key_by_name n in
  if is_virtual_key k then k else 0.

(** What the client owes the connection right now: the state of this key, which is neither
    down nor up when there is no such key, whether something was done, or the information
    about a key. *)
Inductive owed : Type := OState (k : key) | ODone | OInfo.
Definition pays (o : owed) (m : amsg) : bool :=
  match o, m with
  | OState k, AVirtual k' st =>
      (k' =? k) && match st with
                   | Down | Up => is_virtual_key k
                   | Not => negb (is_virtual_key k)
                   | _ => false
                   end
  | ODone, AVirtual k' st => (k' =? 0) && match st with Down | Up => true | _ => false end
  | OInfo, ANextKeyInfo (_ :: _) => true
  | _, _ => false
  end.

Record link : Type := Link {
  lk_open : bool;
  lk_armed : key;                 (* waits for a change of this key; 0: does not *)
  lk_info : bool;                 (* waits for the next key *)
  lk_owed : option owed;
  lk_names : list (text * key);   (* the names of the configuration sent last *)
  lk_asked : nat;                 (* number of requests *)
  lk_answered : nat;              (* number of answers *)
  lk_ok : bool                    (* nothing unexpected happened *)
}.
Definition asks_for (names : list (text * key)) (m : rcall) : option owed :=
  match m with
  | QGet n | QSet n _ => Some (OState (named names n))
  | QInstance _ => Some (OState 0)
  | QConfig _ | QInjectInput _ | QInjectOutput _ => Some ODone
  | QNotify n => if named names n =? 0 then Some (OState 0) else None
  | QNextKey => None
  end.
(** Every request is answered before anything else happens, unless it waits for a change
    of a known key or for the next key; then it is answered by the next report of that key,
    or by the next key.  There are no other answers. *)
Definition link_step (s : N) (x : link) (e : ceffect) : link :=
  match e with
  | FAccepted s' =>
      if (s' =? s) && negb (lk_open x) then Link true 0 false None (lk_names x) 0 0 (lk_ok x) else x
  | FClosed s' =>
      if s' =? s then Link false 0 false None (lk_names x) (lk_asked x) (lk_answered x) (lk_ok x) else x
  | FLost => Link false 0 false None [] (lk_asked x) (lk_answered x) (lk_ok x)
  | FSent (SConfig g) =>
      Link (lk_open x) (lk_armed x) (lk_info x) (lk_owed x) (cfg_aliases g) (lk_asked x) (lk_answered x) (lk_ok x)
  | FAsked s' m =>
      if s' =? s then
        Link (lk_open x)
             (match m with QNotify n => if named (lk_names x) n =? 0 then lk_armed x else named (lk_names x) n
                         | _ => lk_armed x end)
             (match m with QNextKey => true | _ => lk_info x end)
             (asks_for (lk_names x) m) (lk_names x) (S (lk_asked x)) (lk_answered x)
             (lk_ok x && lk_open x && match lk_owed x with None => true | _ => false end)
      else x
  | FAnswer s' m =>
      if s' =? s then
        Link (lk_open x) (lk_armed x) (lk_info x) None (lk_names x) (lk_asked x) (S (lk_answered x))
             (lk_ok x && lk_open x && match lk_owed x with Some o => pays o m | None => false end)
      else x
  | FGot (DVirtual k _) =>
      if lk_open x && (lk_armed x =? k) && is_virtual_key k then
        Link (lk_open x) 0 (lk_info x) (Some (OState k)) (lk_names x) (lk_asked x) (lk_answered x)
             (lk_ok x && match lk_owed x with None => true | _ => false end)
      else x
  | FGot (DNextKeyInfo _ _ _) =>
      if lk_open x && lk_info x then
        Link (lk_open x) (lk_armed x) false (Some OInfo) (lk_names x) (lk_asked x) (lk_answered x)
             (lk_ok x && match lk_owed x with None => true | _ => false end)
      else x
  | _ => x
  end.
Definition no_link : link := Link false 0 false None [] 0 0 true.
Definition link_of (s : N) (t : trace) : link := fold_left (link_step s) t no_link.

(** * Both processes *)

(** What happens in the client and in keymapperctl, in the order of time. *)
Inductive act : Type := AC (e : ceffect) | AG (e : geffect).
Definition log := list act.
Definition client_of (l : log) : trace := flat_map (fun a => match a with AC e => [e] | AG _ => [] end) l.
Definition ctl_of (l : log) : list geffect := flat_map (fun a => match a with AG e => [e] | AC _ => [] end) l.

(** What was sent and read since the connection was established last; None before. *)
Definition session : Type := option (list rmsg * bytes).
Definition session_step (x : session) (e : geffect) : session :=
  match e, x with
  | GConnect true, _ => Some ([], [])
  | GSend m true, Some (l, b) => Some (l ++ [m], b)
  | GRead _ (Some d), Some (l, b) => Some (l, b ++ d)
  | _, _ => x
  end.
Definition session_of (t : list geffect) : session := fold_left session_step t None.
(** The number of connections established so far. *)
Definition connected (t : list geffect) : nat :=
  length (List.filter (fun e => match e with GConnect true => true | _ => false end) t).

(** The same connection at the client's end: the socket and the position in the trace
    where it was accepted.  What was received and sent until the socket was closed. *)
Fixpoint until_closed (s : N) (t : trace) : trace :=
  match t with
  | [] => []
  | FClosed s' :: r => if s' =? s then [] else FClosed s' :: until_closed s r
  | FLost :: _ => []
  | e :: r => e :: until_closed s r
  end.
Definition on_connection (s : N) (n : nat) (t : trace) : trace := until_closed s (skipn (S n) t).
Definition asked (s : N) (t : trace) : list rcall :=
  flat_map (fun e => match e with FAsked s' m => if s' =? s then [m] else [] | _ => [] end) t.
Definition answers (s : N) (t : trace) : list amsg :=
  flat_map (fun e => match e with FAnswer s' m => if s' =? s then [m] else [] | _ => [] end) t.

Definition prefix {A} (a b : list A) : Prop := exists c, b = a ++ c.

(** The connections do what sockets do: the j-th connection of keymapperctl was accepted by
    the client before, requests arrive in the order in which they were sent, and what was read
    are the first bytes of the answers. *)
Definition delivers (at_client : nat -> N * nat) (l : log) : Prop :=
  forall p, prefix p l ->
    match session_of (ctl_of p) with
    | None => True
    | Some (sent, read) =>
        let '(s, n) := at_client (connected (ctl_of p)) in
        nth_error (client_of p) n = Some (FAccepted s) /\
        lk_open (link_of s (firstn n (client_of p))) = false /\
        prefix (asked s (on_connection s n (client_of p))) (flat_map rcalls sent) /\
        prefix read (stream (map write_amsg (answers s (on_connection s n (client_of p)))))
    end.

(** * What the operations of keymapperctl mean *)

(** The request to the client; None when there is none or more than one. *)
Definition call_of (absolute : text -> option text) (q : request) : option rcall :=
  let n := rq_string q in
  match rq_type q with
  | QtPress => Some (QSet n 1)
  | QtRelease => Some (QSet n 0)
  | QtToggle => Some (QSet n 2)
  | QtIsPressed | QtIsReleased => Some (QGet n)
  | QtInstance => Some (QInstance n)
  | QtConfig => option_map QConfig (absolute n)
  | QtInput => Some (QInjectInput n)
  | QtOutput => Some (QInjectOutput n)
  | QtType => Some (QInjectOutput (T """" ++ n ++ T """"))
  | _ => None
  end.
(** The result of the operation when the client answers with this state. *)
Definition verdict (ty : rtype) (st : kstate) : result :=
  match ty, st with
  | QtIsPressed, Down | QtIsReleased, Up => RYes
  | QtIsPressed, Up | QtIsReleased, Down => RNo
  | (QtPress | QtRelease | QtToggle), (Down | Up) => RYes
  | (QtConfig | QtInput | QtOutput | QtType), Down => RYes
  | (QtConfig | QtInput | QtOutput | QtType), _ => RNo
  | QtInstance, _ => RYes
  | _, _ => RNotFound
  end.
(** The names of the configuration the server has. *)
Definition names_of (t : trace) : list (text * key) :=
  match fst (held t) with Some g => cfg_aliases g | None => [] end.

(** Since the connection was established no operation was left without its answer. *)
Definition exchanges (q : request) : bool :=
  match rq_type q with QtWait | QtStdout | QtRestart => false | _ => true end.
Definition undisturbed_step (b : bool) (e : geffect) : bool :=
  match e with
  | GConnect true => true
  | GEnd q RTimeout | GEnd q RFailed => b && negb (exchanges q)
  | _ => b
  end.
Definition undisturbed (t : list geffect) : bool := fold_left undisturbed_step t true.

(** A log of both processes. *)
Definition both (client : trace) (ctl : list geffect) (at_client : nat -> N * nat) (l : log) : Prop :=
  prefix (client_of l) client /\ prefix (ctl_of l) ctl /\ delivers at_client l.
(** Information about keys fits into a message. *)
Definition short_infos (t : trace) : Prop :=
  forall s x, In (FAnswer s (ANextKeyInfo x)) t -> short (write_amsg (ANextKeyInfo x)).
(** The operation [q] began after [p], ended with [r], and [m] happened in between. *)
Definition operation (l p : log) (q : request) (m : log) (r : result) : Prop :=
  exists tail, l = p ++ AG (GBegin q) :: m ++ AG (GEnd q r) :: tail /\ forall q', ~ In (GBegin q') (ctl_of m).
(** The server reports a key only when its state changed. *)
Definition only_changes (k : key) (t : trace) : Prop :=
  forall a st b, t = a ++ FGot (DVirtual k st) :: b -> (st =? 1) = negb (reported k a).
(** At some moment of [v], which follows [t]. *)
Definition sometime (P : trace -> Prop) (t v : trace) : Prop := exists a b, v = a ++ b /\ P (t ++ a).
Definition throughout (P : trace -> Prop) (t v : trace) : Prop := forall a b, v = a ++ b -> P (t ++ a).
