(** Model of how the client finds out which window has the focus:
    src/client/unix/FocusedWindowImpl.cpp, FocusedWindowX11.cpp, FocusedWindowDBus.cpp,
    FocusedWindowWlroots.cpp and the two scripts of extra/share which tell it under GNOME and
    KDE.

    The X server, the D-Bus daemon and the Wayland compositor are the environment: what they
    answer and send is data.  Not modelled: whether a system can be initialized (a choice of
    the environment), the replies to D-Bus calls, failing allocations, Carbon. *)
From Coq Require Import String Ascii List Arith NArith ZArith Bool.
From Verif Require Import Base Key Text KeyNames ParseSeq Stage Config Serial Client.
Import ListNotations.
Local Open Scope N_scope.

(** * X11 *)

(** What XGetWindowProperty returns in data: nothing, or a buffer with the items which are of
    the requested type (none of them when the property is empty or of another type). *)
Definition xprop : Type := option (list N).
(** The answers of the X server to the calls of one update: _NET_ACTIVE_WINDOW,
    _NET_WM_NAME (the items are bytes), the res_name of XGetClassHint, _NET_WM_PID and the
    path realpath gives for each process (empty when it fails). *)
Record xanswers : Type := XA {
  xa_active : xprop;
  xa_name : xprop;
  xa_class : option text;
  xa_pid : xprop;
  xa_exe : N -> text
}.

(** Reading the first item of the buffer: None is a read beyond its end. *)
Definition first_item (p : list N) : option N :=
  match p with [] => None | x :: _ => Some x end.

(** FocusedWindowX11.cpp:69-84 *)
Definition get_focused_window (a : xanswers) : option N :=
  match xa_active a with Some p => first_item p | None => Some 0 end.

(** FocusedWindowX11.cpp:86-96 *)
Definition get_window_class (w : N) (a : xanswers) : text :=
  if w =? 0 then [] else match xa_class a with Some t => t | None => [] end.

(** 1024 units of four bytes *)
Definition title_limit : nat := N.to_nat 4096.
(** The characters up to a NUL *)
Fixpoint c_string (l : list N) : text :=
  match l with
  | [] => []
  | x :: r => if x =? 0 then [] else ascii_of_N x :: c_string r
  end.
(** FocusedWindowX11.cpp:98-114 *)
Definition get_window_title (w : N) (a : xanswers) : text :=
  if w =? 0 then [] else match xa_name a with Some l => c_string (firstn title_limit l) | None => [] end.

(** FocusedWindowX11.cpp:116-132, FocusedWindowImpl.cpp:87-96 *)
Definition get_window_path (w : N) (a : xanswers) : option text :=
  if w =? 0 then Some []
  else match xa_pid a with
       | Some p => match first_item p with Some pid => Some (xa_exe a pid) | None => None end
       | None => Some []
       end.

(** FocusedWindowX11.cpp:49-66: m_focused_window and the shared data; None is undefined
    behaviour. *)
Definition x11_update (a : xanswers) (focused : N) (d : window) : option (bool * N * window) :=
  match get_focused_window a with
  | None => None
  | Some w =>
      let title := get_window_title w a in
      if (w =? focused) && text_eqb title (w_title d) then Some (false, focused, d)
      else
        match get_window_class w a, title with
        | [], _ => Some (false, focused, d)
        | _, [] => Some (false, focused, d)
        | class, _ =>
            match get_window_path w a with
            | None => None
            | Some path => Some (true, w, Win class title path)
            end
        end
  end.

(** * D-Bus *)

(** A call of WindowFocus with two strings, with other arguments, another message *)
Inductive dmsg : Type :=
| DFocus (title class : text)
| DBad
| DOther.

(** FocusedWindowDBus.cpp:85-125: m_updated and the shared data *)
Definition handle_message (m : dmsg) (updated : bool) (d : window) : bool * window :=
  match m with
  | DFocus title class => (true, Win class title [])
  | DBad | DOther => (updated, d)
  end.

(** dbus_connection_read_write_dispatch of libdbus without waiting: a message which was read
    already is dispatched, otherwise some of those which arrived are read.  [n] is how many
    more than one. *)
Definition read_write_dispatch (n : nat) (queue socket : list dmsg) : option dmsg * list dmsg * list dmsg :=
  match queue with
  | m :: queue => (Some m, queue, socket)
  | [] => (None, firstn (S n) socket, skipn (S n) socket)
  end.

(** * wlroots *)

(** FocusedWindowWlroots.cpp:54-58, with the address of the object *)
Record toplevel : Type := Top { tl_address : N; tl_title : text; tl_app : text }.
(** The events of the protocol; windows are identified by their handles. *)
Inductive wevent : Type :=
| WToplevel (h : N) (address : N)   (* a new handle, the object for it was allocated at an address *)
| WTitle (h : N) (t : text)
| WApp (h : N) (t : text)
| WState (h : N) (l : list N)
| WDone (h : N)
| WClosed (h : N).
(** FocusedWindowWlroots.cpp:13-17 and the listeners of the handles *)
Record wlr : Type := Wlr {
  wl_active : option N;             (* m_active_toplevel *)
  wl_tops : list (N * toplevel);
  wl_updated : bool
}.
Definition new_wlr : wlr := Wlr None [] false.

Fixpoint top_of (h : N) (l : list (N * toplevel)) : option toplevel :=
  match l with
  | [] => None
  | (k, t) :: r => if k =? h then Some t else top_of h r
  end.
Definition set_top (h : N) (f : toplevel -> toplevel) (l : list (N * toplevel)) : list (N * toplevel) :=
  map (fun e => if fst e =? h then (fst e, f (snd e)) else e) l.
Definition remove_top (h : N) (l : list (N * toplevel)) : list (N * toplevel) :=
  List.filter (fun e => negb (fst e =? h)) l.

(** zwlr_foreign_toplevel_handle_v1_state: maximized, minimized, activated, fullscreen *)
Definition st_maximized : N := 0.
Definition st_minimized : N := 1.
Definition st_activated : N := 2.
Definition st_fullscreen : N := 3.

(** FocusedWindowWlroots.cpp:99-105 *)
Definition handle_state (l : list N) (address : N) (active : option N) : option N :=
  fold_left (fun active v => if negb (N.land v st_activated =? 0) then Some address else active) l active.

(** FocusedWindowWlroots.cpp:82-121; the shared data comes with it.  An event for a handle
    which was destroyed is not delivered. *)
Definition wlr_event (e : wevent) (s : wlr * window) : wlr * window :=
  let '(w, d) := s in
  match e with
  | WToplevel h a => (Wlr (wl_active w) (wl_tops w ++ [(h, Top a [] [])]) (wl_updated w), d)
  | WTitle h t =>
      (Wlr (wl_active w) (set_top h (fun o => Top (tl_address o) t (tl_app o)) (wl_tops w)) (wl_updated w), d)
  | WApp h t =>
      (Wlr (wl_active w) (set_top h (fun o => Top (tl_address o) (tl_title o) t) (wl_tops w)) (wl_updated w), d)
  | WState h l =>
      match top_of h (wl_tops w) with
      | Some o => (Wlr (handle_state l (tl_address o) (wl_active w)) (wl_tops w) (wl_updated w), d)
      | None => (w, d)
      end
  | WDone h =>
      match top_of h (wl_tops w) with
      | Some o =>
          if match wl_active w with Some a => a =? tl_address o | None => false end &&
             negb (text_eqb (w_title d) (tl_title o) && text_eqb (w_class d) (tl_app o))
          then (Wlr (wl_active w) (wl_tops w) true, Win (tl_app o) (tl_title o) [])
          else (w, d)
      | None => (w, d)
      end
  | WClosed h => (Wlr (wl_active w) (remove_top h (wl_tops w)) (wl_updated w), d)
  end.
Definition wlr_events (l : list wevent) (s : wlr * window) : wlr * window :=
  fold_left (fun s e => wlr_event e s) l s.

(** * All of them *)

(** FocusedWindowImpl.h:7-32: the systems which could be initialized, the data they share, and
    what was sent to the client and waits to be read. *)
Record focus : Type := Fo {
  fo_data : window;
  fo_x11 : option N;                (* m_focused_window *)
  fo_dbus : option bool;            (* m_updated *)
  fo_wlr : option wlr;
  fo_queue : list dmsg;             (* read from the socket, not dispatched *)
  fo_socket : list dmsg;
  fo_wire : list wevent
}.
Definition new_focus : focus := Fo (Win [] [] []) None None None [] [] [].

(** FocusedWindowImpl.cpp:11-35; the connection to the bus is shared and stays
    (dbus_bus_get), that to the compositor is a new one. *)
Definition initialize (x11 dbus wlroots : bool) (f : focus) : focus :=
  Fo (fo_data f) (if x11 then Some 0 else None) (if dbus then Some false else None)
    (if wlroots then Some new_wlr else None) (fo_queue f) (fo_socket f) [].
(** FocusedWindowImpl.cpp:37-39 *)
Definition shutdown (f : focus) : focus :=
  Fo (fo_data f) None None None (fo_queue f) (fo_socket f) [].

(** FocusedWindowX11.cpp:49-66 as a system *)
Definition update_x11 (a : xanswers) (f : focus) : option (bool * focus) :=
  match fo_x11 f with
  | None => Some (false, f)
  | Some w =>
      match x11_update a w (fo_data f) with
      | None => None
      | Some (r, w', d) => Some (r, Fo d (Some w') (fo_dbus f) (fo_wlr f) (fo_queue f) (fo_socket f) (fo_wire f))
      end
  end.
(** FocusedWindowDBus.cpp:74-77 *)
Definition update_dbus (n : nat) (f : focus) : bool * focus :=
  match fo_dbus f with
  | None => (false, f)
  | Some updated =>
      let '(m, queue, socket) := read_write_dispatch n (fo_queue f) (fo_socket f) in
      let '(updated, d) := match m with
                           | Some m => handle_message m updated (fo_data f)
                           | None => (updated, fo_data f)
                           end in
      (updated, Fo d (fo_x11 f) (Some false) (fo_wlr f) queue socket (fo_wire f))
  end.
(** FocusedWindowWlroots.cpp:48-51: the round trip gets everything which was sent before *)
Definition update_wlr (f : focus) : bool * focus :=
  match fo_wlr f with
  | None => (false, f)
  | Some w =>
      let '(w, d) := wlr_events (fo_wire f) (w, fo_data f) in
      (wl_updated w,
       Fo d (fo_x11 f) (fo_dbus f) (Some (Wlr (wl_active w) (wl_tops w) false)) (fo_queue f) (fo_socket f) [])
  end.
(** FocusedWindowImpl.cpp:41-46: the first system which has something new ends it *)
Definition update (a : xanswers) (n : nat) (f : focus) : option (bool * focus) :=
  match update_x11 a f with
  | None => None
  | Some (true, f) => Some (true, f)
  | Some (false, f) =>
      let '(r, f) := update_dbus n f in
      if r then Some (true, f) else Some (update_wlr f)
  end.

(** What happens to it *)
Inductive fstep : Type :=
| FInit (x11 dbus wlroots : bool)
| FShutdown
| FMessages (l : list dmsg)         (* sent on the bus *)
| FEvents (l : list wevent)         (* sent by the compositor *)
| FUpdate (a : xanswers) (n : nat).
Definition focus_step (s : fstep) (f : focus) : option (option bool * focus) :=
  match s with
  | FInit x d w => Some (None, initialize x d w f)
  | FShutdown => Some (None, shutdown f)
  | FMessages l => Some (None, Fo (fo_data f) (fo_x11 f) (fo_dbus f) (fo_wlr f) (fo_queue f) (fo_socket f ++ l) (fo_wire f))
  | FEvents l => Some (None, Fo (fo_data f) (fo_x11 f) (fo_dbus f) (fo_wlr f) (fo_queue f) (fo_socket f)
                              (match fo_wlr f with Some _ => fo_wire f ++ l | None => [] end))
  | FUpdate a n => match update a n f with Some (r, f) => Some (Some r, f) | None => None end
  end.
(** The results of the updates, as the client gets them (ClientState.cpp:178-196), and what is
    left; None when a read went out of range. *)
Fixpoint focus_run (l : list fstep) (f : focus) : option (list (option window) * focus) :=
  match l with
  | [] => Some ([], f)
  | s :: r =>
      match focus_step s f with
      | None => None
      | Some (o, f') =>
          match focus_run r f' with
          | None => None
          | Some (ws, f'') =>
              Some (match o with
                    | Some true => Some (fo_data f') :: ws
                    | Some false => None :: ws
                    | None => ws
                    end, f'')
          end
      end
  end.

(** * The scripts *)

(** A window as the compositor sees it: the application it belongs to, its title and class *)
Record dwindow : Type := DW { dw_app : N; dw_caption : text; dw_class : text }.
(** extra/share/gnome-shell/extensions/keymapper@houmain.github.com/extension.js:23-29: called
    when the focused application changes; "root" when there is no window *)
Definition gnome_focus (old new : option dwindow) : list dmsg :=
  if match old, new with
     | Some a, Some b => dw_app a =? dw_app b
     | None, None => true
     | _, _ => false
     end then []
  else [match new with
        | Some w => DFocus (dw_caption w) (dw_class w)
        | None => DFocus [] (T "root")
        end].
(** extra/share/kwin/scripts/keymapper/contents/code/main.js:11-20: called for each window which is
    activated, without a window when none is *)
Definition kwin_focus (new : option dwindow) : list dmsg :=
  [match new with
   | Some w => DFocus (dw_caption w) (dw_class w)
   | None => DFocus [] []
   end].
