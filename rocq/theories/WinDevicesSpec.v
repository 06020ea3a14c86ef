(** What is expected of the devices on Windows (C102, C103). *)
From Coq Require Import List Arith NArith ZArith Bool.
From Verif Require Import Base Key Stage WinServer WinInput WinInputSpec WinDevices.
Import ListNotations.
Local Open Scope N_scope.

(** ** Strokes *)

(** The flags of a mouse stroke, and those of a MOUSEINPUT for the messages of the hook *)
Definition mouse_flags : list N :=
  [0x001; 0x002; 0x004; 0x008; 0x010; 0x020; 0x040; 0x080; 0x100; 0x200].
Definition wheel_flags : list N := [0x400; 0x800].
(** (message, flag): left, right, middle, down and up *)
Definition button_messages : list (N * N) :=
  [(0x201, 0x2); (0x202, 0x4); (0x204, 0x8); (0x205, 0x10); (0x207, 0x20); (0x208, 0x40)].
Definition x_button_messages : list (N * N) := [(0x20B, 0x80); (0x20C, 0x100)].
Definition wheel_messages : list (N * N) := [(0x20A, 0x800); (0x20E, 0x1000)].

(** ** Devices *)

Section Devices.
Variable filters : Type.
Variable grabs : filters -> device_desc -> bool.

(** The description of a device which is attached after steps, the last of them first; the
    filters which are in force *)
Fixpoint desc_of (past : list (rstep filters)) (h : N) : option device_desc :=
  match past with
  | [] => None
  | RAttached h' (Some (x, _)) :: r => if h =? h' then Some x else desc_of r h
  | RRemoved h' :: r => if h =? h' then None else desc_of r h
  | _ :: r => desc_of r h
  end.
Fixpoint filters_of (f : filters) (past : list (rstep filters)) : filters :=
  match past with
  | [] => f
  | RFilters f' :: _ => f'
  | _ :: r => filters_of f r
  end.
(** The handles with identifiers, in the order in which they were attached *)
Fixpoint known (past : list (rstep filters)) : list (N * list N) :=
  match past with
  | [] => []
  | RAttached h (Some (_, ids)) :: r => known r ++ [(h, ids)]
  | _ :: r => known r
  end.

(** Windows attaches a device only when it is not attached, and gives it a handle which is
    not 0.  [ids_of]: the identifiers the driver tells. *)
Variable ids_of : N -> list N.
Fixpoint possible (past : list (rstep filters)) : Prop :=
  match past with
  | [] => True
  | RAttached h info :: r => h <> 0 /\ desc_of r h = None /\ possible r
  | RStroke device ids :: r => ids = ids_of device /\ possible r
  | _ :: r => possible r
  end.
End Devices.
Arguments desc_of {filters}.
Arguments filters_of {filters}.
Arguments known {filters}.
Arguments possible {filters}.

(** ** Identifiers *)

(** A list of identifiers, each with its end *)
Definition with_ends (l : list (list N)) : list N := flat_map (fun e => e ++ [0]) l.
Definition identifier (e : list N) : Prop := ~ In 0 e.

(** Two devices are the same: an identifier with a backslash is among those of the other, or
    has the same numbers as one of them. *)
Definition same_device (vid_pid_rev : list N -> option (N * N * N)) (a b : list (list N)) : Prop :=
  exists x y, In x a /\ In y b /\ In 92 x /\
    (x = y \/ exists n, vid_pid_rev x = Some n /\ vid_pid_rev y = Some n).
