(** Model of keymapperctl: src/control/main.cpp, src/control/Settings.cpp,
    src/control/ClientPort.cpp.

    The operating system is a set of oracles: whether connecting and sending succeed and
    what a read from the socket yields.  Not modelled: the wide characters and the command
    expansion of Windows, the help text, output to stdout other than its text. *)
From Coq Require Import String Ascii List Arith NArith ZArith Bool.
From Verif Require Import Base Key Text Serial.
Import ListNotations.
Local Open Scope N_scope.

(** * The command line *)

(** control/Settings.h:8-26 *)
Inductive rtype : Type :=
| QtPress | QtRelease | QtToggle | QtIsPressed | QtIsReleased
| QtWaitPressed | QtWaitReleased | QtWaitToggled | QtWait | QtInstance | QtRestart
| QtStdout | QtConfig | QtNextKey | QtInput | QtOutput | QtType.
(** control/Settings.h:28-32; the timeout in milliseconds *)
Record request : Type := Rq { rq_type : rtype; rq_string : text; rq_timeout : option Z }.

(** Settings.cpp:101-111 *)
Definition key_request (a : text) : option rtype :=
  if text_eqb a (T "--press") then Some QtPress
  else if text_eqb a (T "--release") then Some QtRelease
  else if text_eqb a (T "--toggle") then Some QtToggle
  else if text_eqb a (T "--is-pressed") then Some QtIsPressed
  else if text_eqb a (T "--is-released") then Some QtIsReleased
  else if text_eqb a (T "--wait-pressed") then Some QtWaitPressed
  else if text_eqb a (T "--wait-released") then Some QtWaitReleased
  else if text_eqb a (T "--wait-toggled") then Some QtWaitToggled
  else None.

Definition begins_with_dash (a : text) : bool :=
  match a with c :: _ => Ascii.eqb c "-"%char | [] => false end.
(** 24 hours *)
Definition max_timeout : Z := 86400000.

Section CommandLine.
(** std::atoi *)
Variable atoi : text -> Z.

(** Settings.cpp:22-120 without the check that there are requests.  [t] is the variable
    timeout, the inner function read_sequence. *)
Fixpoint interpret (t : option Z) (args : list text) {struct args} : option (list request) :=
  match args with
  | [] => Some []
  | a :: r =>
      let sequence (ty : rtype) :=
        (fix go (acc : text) (l : list text) {struct l} : option (list request) :=
           match l with
           | [] => Some [Rq ty acc t]
           | x :: l' => if begins_with_dash x
                        then option_map (cons (Rq ty acc t)) (interpret t l)
                        else go (acc ++ x ++ T " ") l'
           end) [] r in
      let one (ty : rtype) (t' : option Z) :=
        match r with
        | [] => None
        | x :: r' => option_map (cons (Rq ty x t')) (interpret t r')
        end in
      if text_eqb a (T "--timeout") then
        match r with
        | [] => None
        | x :: r' => interpret (let n := atoi x in
                                if (n <? 0)%Z || (max_timeout <? n)%Z then None else Some n) r'
        end
      else if text_eqb a (T "--instance") then one QtInstance None
      else if text_eqb a (T "--wait") then
        match r with
        | [] => None
        | x :: r' => option_map (cons (Rq QtWait [] (Some (atoi x)))) (interpret (Some (atoi x)) r')
        end
      else if text_eqb a (T "--stdout") then option_map (cons (Rq QtStdout [] None)) (interpret t r)
      else if text_eqb a (T "--restart") then option_map (cons (Rq QtRestart [] t)) (interpret t r)
      else if text_eqb a (T "--next-key-info") then option_map (cons (Rq QtNextKey [] t)) (interpret t r)
      else if text_eqb a (T "--set-config") then one QtConfig t
      else if text_eqb a (T "--input") then sequence QtInput
      else if text_eqb a (T "--output") then sequence QtOutput
      else if text_eqb a (T "--type") then one QtType t
      else match key_request a with
           | Some ty => one ty t
           | None => None
           end
  end.
(** Settings.cpp:20-125 *)
Definition interpret_commandline (args : list text) : option (list request) :=
  match interpret None args with
  | Some [] => None
  | x => x
  end.
End CommandLine.

(** * Requests *)

(** main.cpp:8-15 *)
Inductive result : Type := RYes | RNo | RInvalid | RFailed | RTimeout | RNotFound.
Definition result_code (r : result) : N :=
  match r with RYes => 0 | RNo => 1 | RInvalid => 2 | RFailed => 3 | RTimeout => 4 | RNotFound => 5 end.

(** What keymapperctl does and what it gets to know. *)
Inductive geffect : Type :=
| GConnect (ok : bool)               (* the connection was established or not *)
| GBegin (q : request)               (* make_request is called *)
| GSend (m : rmsg) (ok : bool)       (* a message to the client *)
| GRead (timeout : option Z) (b : option bytes)
                                     (* what was read before it would block (nothing when
                                        the timeout passed); None when reading failed *)
| GSleep (ms : option Z)
| GPrint (t : text)
| GEnd (q : request) (r : result).   (* make_request returns *)

Record ctl : Type := K {
  g_buf : bytes;                     (* m_deserializer.buffer *)
  g_id : text;                       (* g_instance_id *)
  g_connects : nat; g_sends : nat; g_reads : nat;
  g_trace : list geffect             (* oldest first *)
}.
Definition k_buf b (c : ctl) := K b (g_id c) (g_connects c) (g_sends c) (g_reads c) (g_trace c).
Definition k_id i (c : ctl) := K (g_buf c) i (g_connects c) (g_sends c) (g_reads c) (g_trace c).
Definition k_emit e (c : ctl) := K (g_buf c) (g_id c) (g_connects c) (g_sends c) (g_reads c) (g_trace c ++ [e]).
Definition new_ctl : ctl := K [] [] 0 0 0 [].

Section Ctl.
(** Whether the n-th try to connect, the n-th send succeeds; what the n-th read yields. *)
Variable connects : nat -> bool.
Variable sends : nat -> bool.
Variable incoming : nat -> option bytes.
(** std::filesystem::absolute *)
Variable absolute : text -> option text.

(** ClientPort.cpp:8-11; the new connection has an empty buffer *)
Definition ctl_connect (c : ctl) : bool * ctl :=
  let ok := connects (g_connects c) in
  (ok, k_emit (GConnect ok) (K (if ok then [] else g_buf c) (g_id c) (S (g_connects c)) (g_sends c) (g_reads c) (g_trace c))).

(** ClientPort.cpp:13-79 *)
Definition ctl_send (m : rmsg) (c : ctl) : bool * ctl :=
  let ok := sends (g_sends c) in
  (ok, k_emit (GSend m ok) (K (g_buf c) (g_id c) (g_connects c) (S (g_sends c)) (g_reads c) (g_trace c))).

(** Connection.h:118-145.  Waiting with a negative timeout fails
    (Connection.cpp:30-42: select reports an error). *)
Definition ctl_read {A} (deserialize : rd (list A)) (timeout : option Z) (c : ctl)
  : option (list A) * ctl :=
  if match timeout with Some n => (n <? 0)%Z | None => false end then (None, k_emit (GRead timeout None) c)
  else
    let b := incoming (g_reads c) in
    let r := read_messages deserialize (g_buf c) (match b with Some d => [KData d] | None => [KError] end) in
    (match rr_ok r with Some true => Some (rr_handled r) | _ => None end,
     k_emit (GRead timeout b)
       (K (rr_buf r) (g_id c) (g_connects c) (g_sends c) (S (g_reads c)) (g_trace c))).

Definition last_of {A} (l : list A) : option A :=
  match rev l with [] => None | x :: _ => Some x end.

(** main.cpp:26-33, ClientPort.cpp:81-96: a state of several which arrived is the last
    one *)
Definition read_state (timeout : option Z) (c : ctl) : result * option N * ctl :=
  let '(l, c) := ctl_read read_answer timeout c in
  match l with
  | None => (RFailed, None, c)
  | Some l => match last_of l with
              | None => (RTimeout, None, c)
              | Some (_, s) => (RYes, Some s, c)
              end
  end.
(** main.cpp:35-54 *)
Definition exchange (m : rmsg) (timeout : option Z) (c : ctl) : result * option N * ctl :=
  let '(ok, c) := ctl_send m c in
  if ok then read_state timeout c else (RFailed, None, c).

Definition is_state (s : option N) (k : kstate) : bool :=
  match s with Some n => n =? state_code k | None => false end.
(** main.cpp:56-60 *)
Definition to_result (r : result) (s : option N) : result :=
  match r with RYes => if is_state s Down then RYes else RNo | _ => r end.

(** main.cpp:81-92, ClientPort.cpp:98-112 *)
Definition next_key_info (timeout : option Z) (c : ctl) : result * ctl :=
  let '(ok, c) := ctl_send RNextKey c in
  if negb ok then (RFailed, c)
  else
    let '(l, c) := ctl_read read_key_info timeout c in
    match l with
    | None => (RFailed, c)
    | Some l => match last_of l with
                | None | Some [] => (RTimeout, c)
                | Some t => (RYes, k_emit (GPrint t) c)
                end
    end.

(** main.cpp:112-188 *)
Definition perform (q : request) (last : result) (c : ctl) : result * ctl :=
  let n := rq_string q in
  let t := rq_timeout q in
  let change (s : kstate) :=
    let '(r, x, c) := exchange (RSet n s) t c in
    (match r with
     | RYes => if is_state x Up || is_state x Down then RYes else RNotFound
     | _ => r
     end, c) in
  let query (yes no : kstate) :=
    let '(r, x, c) := exchange (RGet n) t c in
    (match r with
     | RYes => if is_state x yes then RYes else if is_state x no then RNo else RNotFound
     | _ => r
     end, c) in
  let wait (there : option N -> bool) :=
    let '(r, x, c) := exchange (RGet n) t c in
    match r with
    | RYes => if there x then (RYes, c)
              else let '(r, _, c) := exchange (RNotify n) t c in (r, c)
    | _ => (r, c)
    end in
  let simple (m : rmsg) := let '(r, x, c) := exchange m t c in (to_result r x, c) in
  match rq_type q with
  | QtPress => change Down
  | QtRelease => change Up
  | QtToggle => change Not
  | QtIsPressed => query Down Up
  | QtIsReleased => query Up Down
  | QtWaitPressed => wait (fun x => is_state x Down)
  | QtWaitReleased => wait (fun x => is_state x Up)
  | QtWaitToggled => wait (fun _ => false)
  | QtWait => (last, k_emit (GSleep t) c)
  | QtInstance =>
      (* main.cpp:62-68 *)
      let '(ok, c) := ctl_send (RInstance n) c in
      if ok then let '(r, _, c) := read_state t (k_id n c) in (r, c) else (RFailed, c)
  | QtStdout => (last, k_emit (GPrint [ascii_of_N (48 + result_code last)]) c)
  | QtRestart => (last, c)
  | QtConfig =>
      (* main.cpp:70-79 *)
      match absolute n with
      | None => (RNotFound, c)
      | Some f => simple (RConfig f)
      end
  | QtNextKey => next_key_info t c
  | QtInput => simple (RInjectInput n)
  | QtOutput => simple (RInjectOutput n)
  | QtType => simple (RType n)
  end.
Definition make_request (q : request) (last : result) (c : ctl) : result * ctl :=
  let '(r, c) := perform q last (k_emit (GBegin q) c) in (r, k_emit (GEnd q r) c).

(** ControlPort's ids which do not name an instance, main.cpp:218-220 *)
Definition plain_id (id : text) : bool := text_eqb id [] || text_eqb id (T "0").

(** main.cpp:204-226: [all] are the requests, [rest] those which are still to be made,
    None stands for RESTART.  [fuel] bounds the number of requests made; None as
    the result when the program is still running. *)
Fixpoint ctl_loop (fuel : nat) (all : list request) (rest : option (list request))
    (r : result) (c : ctl) : option result * ctl :=
  match fuel with
  | O => (None, c)
  | S f =>
      match rest with
      | None =>
          match r with
          | RFailed => let '(ok, c) := ctl_connect c in
                       if ok then ctl_loop f all (Some all) r c else (Some RFailed, c)
          | _ => ctl_loop f all (Some all) r c
          end
      | Some [] => (Some r, c)
      | Some (q :: l) =>
          match rq_type q with
          | QtRestart =>
              match r with
              | RFailed => if plain_id (g_id c) then ctl_loop f all None r c else (Some r, c)
              | _ => ctl_loop f all None r c
              end
          | _ => let '(r, c) := make_request q r c in ctl_loop f all (Some l) r c
          end
      end
  end.
(** main.cpp:197-227 *)
Definition ctl_main (atoi : text -> Z) (fuel : nat) (args : list text) : option result * ctl :=
  match interpret_commandline atoi args with
  | None => (Some RInvalid, new_ctl)
  | Some all => ctl_loop fuel all None RFailed new_ctl
  end.
End Ctl.
