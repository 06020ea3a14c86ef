(** What it means that the client knows the focused window, independent of how it finds out.

    A desktop is a set of windows, at most one of which has the focus.  A Wayland compositor
    announces them to the client: in which order it announces changes of different windows and
    properties is up to it, as long as each change is announced at some time and followed by
    done (wlr-foreign-toplevel-management, version 1).  An X server answers questions about
    the current state. *)
From Coq Require Import String Ascii List Arith NArith ZArith Bool.
From Verif Require Import Base Key Text KeyNames ParseSeq Stage Config Serial Client Focus.
Import ListNotations.
Local Open Scope N_scope.

(** ** A Wayland compositor *)

(** A window, whether the client was told about it, and what remains to be announced.  The
    address is where the client keeps its object for it. *)
Record dwin : Type := Dw {
  dn_id : N; dn_address : N;
  dn_title : text; dn_app : text;
  dn_known : bool;
  dn_title_due : bool; dn_app_due : bool; dn_state_due : bool; dn_done_due : bool
}.
Record desk : Type := Desk { dk_windows : list dwin; dk_focus : option N }.

Definition has_focus (dk : desk) (id : N) : bool :=
  match dk_focus dk with Some f => f =? id | None => false end.
Fixpoint win_of (id : N) (l : list dwin) : option dwin :=
  match l with
  | [] => None
  | w :: r => if dn_id w =? id then Some w else win_of id r
  end.
Definition on_win (id : N) (f : dwin -> dwin) (l : list dwin) : list dwin :=
  map (fun w => if dn_id w =? id then f w else w) l.

(** What happens on a desktop *)
Inductive dact : Type :=
| AOpen (id : N) (title app : text)
| AClose (id : N)
| ATitle (id : N) (title : text)
| AApp (id : N) (app : text)
| AFocus (id : option N)
(* announcements *)
| ASendWindow (id : N) (address : N)
| ASendTitle (id : N)
| ASendApp (id : N)
| ASendState (id : N) (l : list N)
| ASendDone (id : N).

Definition live_address (a : N) (l : list dwin) : bool :=
  existsb (fun w => dn_known w && (dn_address w =? a)) l.
(** The states of version 1; activated is the one of the focused window. *)
Definition proper_states (l : list N) (focused : bool) : bool :=
  forallb (fun v => (v =? st_maximized) || (v =? st_minimized) || (v =? st_activated)) l &&
  Bool.eqb (existsb (N.eqb st_activated) l) focused.

(** The announcement and the desktop afterwards; None for what cannot happen. *)
Definition desk_do (a : dact) (dk : desk) : option (list wevent * desk) :=
  let ws := dk_windows dk in
  match a with
  | AOpen id title app =>
      match win_of id ws with
      | Some _ => None
      | None => Some ([], Desk (ws ++ [Dw id 0 title app false true true true true]) (dk_focus dk))
      end
  | AClose id =>
      match win_of id ws with
      | None => None
      | Some w => Some (if dn_known w then [WClosed id] else [],
                        Desk (List.filter (fun w => negb (dn_id w =? id)) ws)
                             (if has_focus dk id then None else dk_focus dk))
      end
  | ATitle id t =>
      match win_of id ws with
      | None => None
      | Some _ => Some ([], Desk (on_win id (fun w =>
                    Dw (dn_id w) (dn_address w) t (dn_app w) (dn_known w) true (dn_app_due w) (dn_state_due w) (dn_done_due w)) ws)
                    (dk_focus dk))
      end
  | AApp id t =>
      match win_of id ws with
      | None => None
      | Some _ => Some ([], Desk (on_win id (fun w =>
                    Dw (dn_id w) (dn_address w) (dn_title w) t (dn_known w) (dn_title_due w) true (dn_state_due w) (dn_done_due w)) ws)
                    (dk_focus dk))
      end
  | AFocus o =>
      if match o with Some id => match win_of id ws with Some _ => true | None => false end | None => true end then
        Some ([], Desk (map (fun w =>
                    if has_focus dk (dn_id w) || match o with Some id => id =? dn_id w | None => false end
                    then Dw (dn_id w) (dn_address w) (dn_title w) (dn_app w) (dn_known w) (dn_title_due w) (dn_app_due w) true (dn_done_due w)
                    else w) ws) o)
      else None
  | ASendWindow id a =>
      match win_of id ws with
      | Some w =>
          if dn_known w || live_address a ws then None
          else Some ([WToplevel id a], Desk (on_win id (fun w =>
                 Dw (dn_id w) a (dn_title w) (dn_app w) true true true true true) ws) (dk_focus dk))
      | None => None
      end
  | ASendTitle id =>
      match win_of id ws with
      | Some w =>
          if dn_known w then
            Some ([WTitle id (dn_title w)], Desk (on_win id (fun w =>
              Dw (dn_id w) (dn_address w) (dn_title w) (dn_app w) (dn_known w) false (dn_app_due w) (dn_state_due w) true) ws) (dk_focus dk))
          else None
      | None => None
      end
  | ASendApp id =>
      match win_of id ws with
      | Some w =>
          if dn_known w then
            Some ([WApp id (dn_app w)], Desk (on_win id (fun w =>
              Dw (dn_id w) (dn_address w) (dn_title w) (dn_app w) (dn_known w) (dn_title_due w) false (dn_state_due w) true) ws) (dk_focus dk))
          else None
      | None => None
      end
  | ASendState id l =>
      match win_of id ws with
      | Some w =>
          if dn_known w && proper_states l (has_focus dk id) then
            Some ([WState id l], Desk (on_win id (fun w =>
              Dw (dn_id w) (dn_address w) (dn_title w) (dn_app w) (dn_known w) (dn_title_due w) (dn_app_due w) false true) ws) (dk_focus dk))
          else None
      | None => None
      end
  | ASendDone id =>
      match win_of id ws with
      | Some w =>
          if dn_known w then
            Some ([WDone id], Desk (on_win id (fun w =>
              Dw (dn_id w) (dn_address w) (dn_title w) (dn_app w) (dn_known w) (dn_title_due w) (dn_app_due w) (dn_state_due w) false) ws) (dk_focus dk))
          else None
      | None => None
      end
  end.

(** Everything there is to tell about a window was told. *)
Definition announced (w : dwin) : bool :=
  dn_known w && negb (dn_title_due w) && negb (dn_app_due w) && negb (dn_state_due w) && negb (dn_done_due w).

(** A client which (re)connects is told everything again. *)
Definition forgotten (dk : desk) : desk :=
  Desk (map (fun w => Dw (dn_id w) 0 (dn_title w) (dn_app w) false true true true true) (dk_windows dk)) (dk_focus dk).

(** What happens to a desktop and a client which asks it. *)
Inductive wstep : Type :=
| SDesk (a : dact)
| SConnect
| SDisconnect
| SUpdate.
(** The calls the client sees; None for what cannot happen. *)
Fixpoint played (l : list wstep) (dk : desk) : option (list fstep * desk) :=
  match l with
  | [] => Some ([], dk)
  | s :: r =>
      match s with
      | SDesk a =>
          match desk_do a dk with
          | None => None
          | Some (es, dk') => match played r dk' with Some (fs, d) => Some (FEvents es :: fs, d) | None => None end
          end
      | SConnect => match played r (forgotten dk) with Some (fs, d) => Some (FInit false false true :: fs, d) | None => None end
      | SDisconnect => match played r (forgotten dk) with Some (fs, d) => Some (FShutdown :: fs, d) | None => None end
      | SUpdate => match played r dk with Some (fs, d) => Some (FUpdate (XA None None None None (fun _ => [])) 0 :: fs, d) | None => None end
      end
  end.

(** The window an update reported last, the given one when none did *)
Fixpoint last_shown (l : list (option window)) (d : window) : window :=
  match l with
  | [] => d
  | Some w :: r => last_shown r w
  | None :: r => last_shown r d
  end.

(** Whether the client is connected to the compositor after the steps *)
Fixpoint connected (l : list wstep) (b : bool) : bool :=
  match l with
  | [] => b
  | SConnect :: r => connected r true
  | SDisconnect :: r => connected r false
  | _ :: r => connected r b
  end.

(** ** An X server *)

(** What is asked for: the window with the focus (0 when there is none) and the titles at that
    time.  The class and the process of a window stay the same. *)
Record xdesk : Type := XD { xd_focus : N; xd_title : N -> text }.
Section X11.
Variable class : N -> text.
Variable pid : N -> option N.
Variable exe : N -> text.

(** A property which is not there has no data. *)
Definition x_text (t : text) : xprop := match t with [] => None | _ => Some (map N_of_ascii t) end.
Definition x_answers (x : xdesk) : xanswers :=
  XA (if xd_focus x =? 0 then None else Some [xd_focus x])
     (x_text (xd_title x (xd_focus x)))
     (match class (xd_focus x) with [] => None | t => Some t end)
     (match pid (xd_focus x) with Some p => Some [p] | None => None end) exe.
Definition x_path (w : N) : text := match pid w with Some p => exe p | None => [] end.
End X11.

(** A title as it can be stored: no NUL, not longer than what is read (4 KiB) *)
Definition x_storable (t : text) : bool :=
  forallb (fun c => negb (N_of_ascii c =? 0)) t && Nat.leb (length t) (N.to_nat 4096).

Inductive xstep : Type :=
| XConnect
| XAsk (x : xdesk).

(** ** A bus *)

(** The window of the last call which gave one *)
Definition last_call (l : list dmsg) (d : window) : window :=
  fold_left (fun d m => match m with DFocus title class => Win class title [] | _ => d end) l d.

(** The window which has the focus as it is told by the scripts, and windows which get the focus one
    after the other, of different applications *)
Definition as_told (no_class : text) (w : option dwindow) : window :=
  match w with Some w => Win (dw_class w) (dw_caption w) [] | None => Win no_class [] [] end.
Fixpoint other_apps (old : option dwindow) (l : list (option dwindow)) : Prop :=
  match l with
  | [] => True
  | w :: r => match old, w with
              | Some a, Some b => a = b \/ dw_app a <> dw_app b
              | _, _ => True
              end /\ other_apps w r
  end.
Fixpoint each_change (tell : option dwindow -> option dwindow -> list dmsg)
    (old : option dwindow) (l : list (option dwindow)) : list dmsg :=
  match l with
  | [] => []
  | w :: r => tell old w ++ each_change tell w r
  end.

Inductive bstep : Type :=
| BCalls (l : list dmsg)
| BUpdate (n : nat)
| BReconnect.
Definition b_step (s : bstep) : list fstep :=
  match s with
  | BCalls l => [FMessages l]
  | BUpdate n => [FUpdate (XA None None None None (fun _ => [])) n]
  | BReconnect => [FShutdown; FInit false true false]
  end.
Definition b_calls (s : bstep) : list dmsg := match s with BCalls l => l | _ => [] end.
