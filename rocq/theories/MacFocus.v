(** Model of src/client/unix/FocusedWindowCarbon.cpp (macOS) with src/client/unix/FocusedWindowImpl.cpp:11-46
    around it.

    CopyProcessName and proc_pidpath are oracles, functions of the process.  Names have no NUL.
    CFStringGetMaximumSizeForEncoding gives three bytes per UTF-16 unit for UTF-8 (CFString.c), and
    CFStringGetCString fails when the text and its NUL do not fit.  A pass of the run loop handles some of the
    events which are waiting, in their order. *)
From Coq Require Import String Ascii List Arith NArith Bool.
From Verif Require Import Base Text Client TyperSpec.
Import ListNotations.
Local Open Scope N_scope.

(** CFStringGetLength: a character from U+10000 on takes two units *)
Definition units (name : list N) : N :=
  fold_right (fun c n => (if c <? 0x10000 then 1 else 2) + n) 0 name.
(** CFStringGetMaximumSizeForEncoding *)
Definition max_size (length : N) : N := 3 * length.
(** CFStringGetCString *)
Definition get_c_string (name : list N) (size : N) : option text :=
  let t := encoded name in if N.of_nat (length t) <? size then Some t else None.
(** FocusedWindowCarbon.cpp:12-19 *)
Definition to_string (name : list N) : text :=
  match get_c_string name (max_size (units name)) with Some t => t | None => [] end.

Record mac_focus : Type := MF {
  mf_data : window;                 (* FocusedWindowData *)
  mf_changed : option bool;         (* m_front_app_changed, None when not initialized *)
  mf_waiting : list (option N)      (* front switched events, None when GetEventParameter fails *)
}.
Definition new_mac_focus : mac_focus := MF (Win [] [] []) None [].

Section Carbon.
(** CopyProcessName, None: an error *)
Variable process_name : N -> option (list N).
(** GetProcessPID and proc_pidpath, None: not more than 0 *)
Variable process_path : N -> option text.

(** FocusedWindowCarbon.cpp:21-37 *)
Definition get_process_name (p : N) : text := match process_name p with Some name => to_string name | None => [] end.
Definition get_process_path (p : N) : text := match process_path p with Some t => t | None => [] end.
(** :99-103 *)
Definition handle_front_app_changed (p : N) (f : mac_focus) : mac_focus :=
  MF (Win (get_process_name p) (w_title (mf_data f)) (get_process_path p)) (Some true) (mf_waiting f).
(** :90-97 *)
Definition handle_event (e : option N) (f : mac_focus) : mac_focus :=
  match e with Some p => handle_front_app_changed p f | None => f end.
(** :67-77 and FocusedWindowImpl.cpp:28-33 *)
Definition mac_initialize (front : N) (f : mac_focus) : mac_focus :=
  handle_front_app_changed front (MF (mf_data f) (Some false) []).
(** FocusedWindowImpl.cpp:37-39, FocusedWindowCarbon.cpp:62-65 *)
Definition mac_shutdown (f : mac_focus) : mac_focus := MF (mf_data f) None [].
(** :79-82; [n] of the events are handled *)
Definition mac_update (n : nat) (f : mac_focus) : bool * mac_focus :=
  match mf_changed f with
  | None => (false, f)
  | Some _ =>
      let now := firstn n (mf_waiting f) in
      let f := fold_left (fun f e => handle_event e f) now (MF (mf_data f) (mf_changed f) (skipn n (mf_waiting f))) in
      (match mf_changed f with Some b => b | None => false end, MF (mf_data f) (Some false) (mf_waiting f))
  end.

(** What happens: the connection is established while a process is in front, it is lost, the system
    tells of another process in front, FocusedWindow::update *)
Inductive mstep : Type :=
| MConnect (front : N)
| MLost
| MSwitched (e : option N)
| MUpdate (n : nat).
Definition mac_step (s : mstep) (f : mac_focus) : option bool * mac_focus :=
  match s with
  | MConnect p => (None, mac_initialize p f)
  | MLost => (None, mac_shutdown f)
  | MSwitched e =>
      (None, match mf_changed f with
             | Some _ => MF (mf_data f) (mf_changed f) (mf_waiting f ++ [e])
             | None => f
             end)
  | MUpdate n => let '(b, f') := mac_update n f in (Some b, f')
  end.
(** The results of the updates, as the client gets them (ClientState.cpp:178-196) *)
Fixpoint mac_run (l : list mstep) (f : mac_focus) : list (option window) * mac_focus :=
  match l with
  | [] => ([], f)
  | s :: r =>
      let '(o, f') := mac_step s f in
      let '(ws, f'') := mac_run r f' in
      (match o with
       | Some true => Some (mf_data f') :: ws
       | Some false => None :: ws
       | None => ws
       end, f'')
  end.
End Carbon.
