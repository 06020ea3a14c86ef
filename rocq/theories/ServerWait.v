(** Model of the wait at the beginning of main_loop in src/server/unix/main.cpp:90-111: how
    long the loop waits for the next input event.  The rest of a turn is in ServerLoop.v. *)
From Coq Require Import List Arith NArith ZArith Bool SpecFloat.
From Verif Require Import Base Key Match Stage MultiStage Server ServerLoop.
Import ListNotations.
Local Open Scope N_scope.

(** A difference of nanoseconds as a Duration (seconds in a double), common/Duration.h:5 *)
Definition seconds_of_ns (z : Z) : spec_float := SFdiv 53 1024 (f64_of_Z z) (f64_of_Z 1000000000).

(** [flush_scheduled_at - now], unix/main.cpp:99-100 *)
Definition flush_in (now t : Z) : spec_float := seconds_of_ns (t - now).
(** [timeout_start_at + timeout - now], unix/main.cpp:101-102: a sum of nanoseconds in a
    double, converted to seconds when passed on *)
Definition timeout_in (now t : Z) (d : spec_float) : spec_float :=
  SFdiv 53 1024
    (SFsub 53 1024
       (SFadd 53 1024 (f64_of_Z t) (SFmul 53 1024 d (f64_of_Z 1000000000)))
       (f64_of_Z now))
    (f64_of_Z 1000000000).

(** The lambda set_timeout, unix/main.cpp:94-97 *)
Definition set_limit (limit : option spec_float) (d : spec_float) : option spec_float :=
  match limit with
  | None => Some d
  | Some l => if SFltb d l then Some d else Some l
  end.

(** unix/main.cpp:92-102: the limit of the wait, None waits until something happens *)
Definition wait_limit (now : Z) (s : server) : option spec_float :=
  let limit := None in
  let limit := match sv_flush s with Some t => set_limit limit (flush_in now t) | None => limit end in
  match sv_start s with
  | Some t => set_limit limit (timeout_in now t (sv_timeout s))
  | None => limit
  end.
