(** Model of the tray icon of the client on Linux and macOS: src/client/unix/TrayIcon.cpp:14-40,
    TrayIconGtk.cpp:47-86, TrayIconCocoa.mm:19-121 and its uses in src/client/unix/main.cpp:52-168,
    on top of the program of ClientMain.v.

    Modelled: when the icon is there, the mark of its entry Active and whether there is an entry
    Reload.  Not modelled: the other entries besides Next Key Info, drawing, the entry Exit, and the
    clicks which are handled while a GTK icon is taken away (TrayIconGtk.cpp:43-44). *)
From Coq Require Import String Ascii List Arith NArith ZArith Bool Lia.
From Verif Require Import Base Key Text Match ParseSeq Stage Config Serial Client ClientMain.
Import ListNotations.

Record menu : Type := Menu {
  mn_active : bool;                 (* the mark of Active *)
  mn_reload : bool                  (* whether there is Reload *)
}.
Record desk : Type := Desk {
  dk_program : program;
  dk_menu : option menu             (* TrayIcon::m_impl *)
}.

(** What can happen: a turn of the loop or a click on an entry. *)
Inductive dstep : Type :=
| DTurn (t : turn)
| DActive
| DReload
| DNextKey.

Section Tray.
Variable search : text -> text -> bool.
Variable typer : text -> list stroke.
Variable key_name : key -> option text.
Variable system : text.
Variable sent : nat -> bool.
Variable focus : nat -> option window.
Variable disk : nat -> files.
(** gtk_init_check, always true on macOS *)
Variable available : bool.

(** TrayIcon.cpp:14-31: nothing is done when there is one; TrayIconGtk.cpp:48-63,
    TrayIconCocoa.mm:92-96 *)
Definition tray_initialize (show_reload : bool) (m : option menu) : option menu :=
  match m with
  | Some _ => m
  | None => if available then Some (Menu true show_reload) else None
  end.
(** main.cpp:57-60, with the program after lines 53 to 56 *)
Definition options_menu (a : program) (m : option menu) : option menu :=
  if ap_tray a then tray_initialize (negb (ap_update a)) m else None.

(** main.cpp:120-124: whether a turn gets to update_options *)
Definition turn_updates (a : program) : bool :=
  if ap_update a then
    let '(changed, c) := update_file disk true (ap_client a) in
    changed && fst (send_config search sent focus c)
  else false.

(** main.cpp:118-168 *)
Definition desk_turn (t : turn) (d : desk) : bool * desk :=
  let a := dk_program d in
  let updates := turn_updates a in
  let '(ok, a') := app_turn search typer key_name system sent focus disk t a in
  if ok then (true, Desk a' (if updates then options_menu a' (dk_menu d) else dk_menu d))
  else
    let '(ok, a') := app_connect search sent focus (with_client (on_server_disconnected (ap_client a')) a') in
    (ok, Desk a' (if ok then options_menu a' None else None)).

Definition program_step (s : cstep) (a : program) : program :=
  snd (app_step search typer key_name system sent focus disk s a).

(** main.cpp:63-65, 91-99, TrayIconCocoa.mm:19-27; GTK flips the mark itself.  A click on what is
    not there does nothing. *)
Definition desk_step (s : dstep) (d : desk) : bool * desk :=
  match s, dk_menu d with
  | DTurn t, _ => desk_turn t d
  | DActive, Some m =>
      (true, Desk (program_step CToggle (dk_program d)) (Some (Menu (negb (mn_active m)) (mn_reload m))))
  | DReload, Some m =>
      if mn_reload m then
        let a := program_step CReload (dk_program d) in (true, Desk a (options_menu a (dk_menu d)))
      else (true, d)
  | DNextKey, Some _ => (true, Desk (program_step CNextKeyRequest (dk_program d)) (dk_menu d))
  | _, None => (true, d)
  end.

(** The states after each of the steps, up to the end of the program *)
Fixpoint desk_run (l : list dstep) (d : desk) : list desk :=
  match l with
  | [] => []
  | s :: r => let '(ok, d') := desk_step s d in if ok then d' :: desk_run r d' else []
  end.

(** main.cpp:157: the icon which the program starts with *)
Definition desk_start (a : program) : desk := Desk a (options_menu a None).
End Tray.
