(** Model of src/client/ClientState.cpp, src/client/ConfigFile.cpp,
    src/client/ControlPort.cpp, src/common/Filter.h, Config::Context::matches of
    src/config/Config.h and the main loop of src/client/unix/main.cpp.

    The operating system is a set of oracles: what the files contain, which window has the
    focus, whether a message to the server could be sent.  The messages which were received
    are given as the calls Serial.v turns the bytes into.  Not modelled: notifications, the
    tray icon, verbose output, the text of errors. *)
From Coq Require Import String Ascii List Arith NArith ZArith Bool.
From Verif Require Import Base Key Text KeyNames ParseSeq Stage Config Serial.
Import ListNotations.
Local Open Scope N_scope.

(** * Filters *)

(** std::string::find *)
Fixpoint contains (p t : text) : bool :=
  match skip p t with
  | Some _ => true
  | None => match t with [] => false | _ :: r => contains p r end
  end.

Section Filters.
(** std::regex_search with the regular expression written as the first text. *)
Variable search : text -> text -> bool.

(** Filter.h:16-24 *)
Definition matches_uninverted (f : filter) (t : text) (substring : bool) : bool :=
  match f_string f with
  | [] => true
  | _ => if f_regex f then search (f_string f) t
         else if substring then contains (f_string f) t else text_eqb t (f_string f)
  end.
(** Filter.h:12-14 *)
Definition filter_matches (f : filter) (t : text) (substring : bool) : bool :=
  xorb (matches_uninverted f t substring) (f_invert f).

(** Filter.h:35-44 *)
Definition evaluate_grab_filters (l : list (filter * bool)) (name id : text) (grab : bool) : bool :=
  fold_left (fun grab (f : filter * bool) =>
    if matches_uninverted (fst f) (if snd f then id else name) false
    then negb (f_invert (fst f)) else grab) l grab.

(** Config.h:34-44 *)
Record window : Type := Win { w_class : text; w_title : text; w_path : text }.
Definition context_matches (w : window) (c : cctx) : bool :=
  filter_matches (cc_class c) (w_class w) false &&
  filter_matches (cc_title c) (w_title w) true &&
  filter_matches (cc_path c) (w_path w) true.
End Filters.

(** * The client *)

(** ConfigFile.h:16-19; an empty name is no file. *)
Record cfile : Type := CF { cf_name : text; cf_time : Z; cf_config : config }.
Definition no_config : config := Config [] [] [] [] [] [] [].
Definition no_file : cfile := CF [] (-1) no_config.

(** The file system: modification time (0 when there is no such file) and the result of
    parsing a file (None when it cannot be opened or has an error). *)
Record files : Type := FS { fs_time : text -> Z; fs_parse : text -> option config }.

(** ControlPort.h:32-37; the connection is identified by its socket. *)
Record control : Type := Ctl { ct_socket : N; ct_id : text; ct_notify : key; ct_info : bool }.

(** What the client does and what it gets to know, as far as it can be observed from
    outside. *)
Inductive ceffect : Type :=
| FLoad (name : text) (ok : bool)   (* a file was read and could be parsed or not *)
| FWindow (w : window)              (* another window got the focus *)
| FActive (b : bool)                (* the user (de)activated the client *)
| FGot (m : ccall)                  (* message of the server *)
| FAccepted (socket : N)            (* new connection of keymapperctl *)
| FAsked (socket : N) (m : rcall)   (* message of keymapperctl *)
| FSent (m : smsg)                  (* message to the server *)
| FAnswer (socket : N) (m : amsg)   (* message to keymapperctl *)
| FExecute (command : text)         (* execute_terminal_command *)
| FShow (t : text)                  (* show_next_key_info *)
| FClosed (socket : N)              (* connection of keymapperctl closed by the client *)
| FLost.                            (* connection to the server lost *)

(** ClientState.h:49-56, ControlPort.h:52-54 and FocusedWindow *)
Record client : Type := CL {
  cl_file : cfile;
  cl_recent : list cfile;
  cl_active_contexts : list Z;
  cl_active : bool;
  cl_window : window;
  cl_down : list bool;              (* m_virtual_keys_down *)
  cl_aliases : list (text * key);
  cl_controls : list control;       (* in the order of the sockets *)
  cl_broken : bool;                 (* a send to the server failed *)
  cl_ub : bool;                     (* m_virtual_keys_down was accessed out of range *)
  cl_sends : nat;                   (* number of sends to the server so far *)
  cl_focus : nat;                   (* number of FocusedWindow::update so far *)
  cl_updates : nat;                 (* number of ConfigFile::update so far *)
  cl_trace : list ceffect           (* oldest first *)
}.

(** ControlPort.h:53: std::array<bool, *Key::last_virtual - *Key::first_virtual> *)
Definition table_size : nat := N.to_nat (last_virtual - first_virtual).
Definition no_keys_down : list bool := repeat false table_size.
Definition new_client : client :=
  CL no_file [] [] true (Win [] [] []) no_keys_down [] [] false false 0 0 0 [].

Definition c_file f (c : client) := CL f (cl_recent c) (cl_active_contexts c) (cl_active c) (cl_window c) (cl_down c) (cl_aliases c) (cl_controls c) (cl_broken c) (cl_ub c) (cl_sends c) (cl_focus c) (cl_updates c) (cl_trace c).
Definition c_recent l (c : client) := CL (cl_file c) l (cl_active_contexts c) (cl_active c) (cl_window c) (cl_down c) (cl_aliases c) (cl_controls c) (cl_broken c) (cl_ub c) (cl_sends c) (cl_focus c) (cl_updates c) (cl_trace c).
Definition c_contexts l (c : client) := CL (cl_file c) (cl_recent c) l (cl_active c) (cl_window c) (cl_down c) (cl_aliases c) (cl_controls c) (cl_broken c) (cl_ub c) (cl_sends c) (cl_focus c) (cl_updates c) (cl_trace c).
Definition c_active b (c : client) := CL (cl_file c) (cl_recent c) (cl_active_contexts c) b (cl_window c) (cl_down c) (cl_aliases c) (cl_controls c) (cl_broken c) (cl_ub c) (cl_sends c) (cl_focus c) (cl_updates c) (cl_trace c).
Definition c_window w n (c : client) := CL (cl_file c) (cl_recent c) (cl_active_contexts c) (cl_active c) w (cl_down c) (cl_aliases c) (cl_controls c) (cl_broken c) (cl_ub c) (cl_sends c) n (cl_updates c) (cl_trace c).
Definition c_down l ub (c : client) := CL (cl_file c) (cl_recent c) (cl_active_contexts c) (cl_active c) (cl_window c) l (cl_aliases c) (cl_controls c) (cl_broken c) ub (cl_sends c) (cl_focus c) (cl_updates c) (cl_trace c).
Definition c_aliases l (c : client) := CL (cl_file c) (cl_recent c) (cl_active_contexts c) (cl_active c) (cl_window c) (cl_down c) l (cl_controls c) (cl_broken c) (cl_ub c) (cl_sends c) (cl_focus c) (cl_updates c) (cl_trace c).
Definition c_controls l (c : client) := CL (cl_file c) (cl_recent c) (cl_active_contexts c) (cl_active c) (cl_window c) (cl_down c) (cl_aliases c) l (cl_broken c) (cl_ub c) (cl_sends c) (cl_focus c) (cl_updates c) (cl_trace c).
Definition c_sent b n (c : client) := CL (cl_file c) (cl_recent c) (cl_active_contexts c) (cl_active c) (cl_window c) (cl_down c) (cl_aliases c) (cl_controls c) b (cl_ub c) n (cl_focus c) (cl_updates c) (cl_trace c).
Definition c_updates n (c : client) := CL (cl_file c) (cl_recent c) (cl_active_contexts c) (cl_active c) (cl_window c) (cl_down c) (cl_aliases c) (cl_controls c) (cl_broken c) (cl_ub c) (cl_sends c) (cl_focus c) n (cl_trace c).
Definition emit (e : ceffect) (c : client) := CL (cl_file c) (cl_recent c) (cl_active_contexts c) (cl_active c) (cl_window c) (cl_down c) (cl_aliases c) (cl_controls c) (cl_broken c) (cl_ub c) (cl_sends c) (cl_focus c) (cl_updates c) (cl_trace c ++ [e]).

Definition cl_config (c : client) : config := cf_config (cl_file c).

(** * Sequences of keymapperctl *)

(** Key.h:461-469: the common logical keys *)
Definition k_Shift : key := first_logical.
Definition k_Control : key := first_logical + 1.
Definition k_Alt : key := first_logical + 2.
Definition k_Meta : key := first_logical + 3.

(** ClientState.cpp:12-22 *)
Definition replace_logical_key (k : key) : key :=
  let k := if k =? k_Shift then ShiftLeft else k in
  let k := if k =? k_Control then ControlLeft else k in
  if k =? k_Meta then MetaLeft else k.
Definition replace_logical_keys (l : sequence) : sequence :=
  map (fun e => Ev (replace_logical_key (ek e)) (es e) (ev e)) l.

(** ClientState.cpp:24-36 *)
Fixpoint keys_down_loop (l : sequence) (down : list key) : list key :=
  match l with
  | [] => down
  | e :: r =>
      keys_down_loop r
        (match es e, find_index (N.eqb (ek e)) down with
         | Down, None => down ++ [ek e]
         | Up, Some i => remove_at i down
         | _, _ => down
         end)
  end.
(** ClientState.cpp:37-40 *)
Definition ensure_all_keys_up (l : sequence) : sequence :=
  l ++ map (fun k => ev0 k Up) (keys_down_loop l []).

Section Client.
Variable search : text -> text -> bool.
(** StringTyper *)
Variable typer : text -> list stroke.
(** get_key_name *)
Variable key_name : key -> option text.
(** current_system *)
Variable system : text.
Variable sent : nat -> bool.
Variable focus : nat -> option window.
Variable disk : nat -> files.

(** Sending to the server.  A connection which is broken stays broken until it is
    established again (an assumption about the operating system). *)
Definition send (m : smsg) (c : client) : bool * client :=
  let ok := negb (cl_broken c) && sent (cl_sends c) in
  let c' := c_sent (negb ok) (S (cl_sends c)) c in
  (ok, if ok then emit (FSent m) c' else c').

(** ** The configuration file *)

(** ConfigFile.cpp:47-55 *)
Definition latest_time (fs : files) (name : text) (includes : list text) : Z :=
  let t := fs_time fs name in
  if (t =? 0)%Z then t
  else fold_left (fun t i => let u := fs_time fs i in if (u =? 0)%Z then t else Z.max t u) includes t.

(** ConfigFile.cpp:64-91; None when the file was not modified and not read (returns
    false). *)
Definition file_update (fs : files) (check : bool) (f : cfile) : option bool * cfile :=
  let t := latest_time fs (cf_name f) (cfg_includes (cf_config f)) in
  if check && (t =? cf_time f)%Z then (None, f)
  else match fs_parse fs (cf_name f) with
       | Some g => (Some true, CF (cf_name f) t g)
       | None => (Some false, CF (cf_name f) t (cf_config f))
       end.
(** ConfigFile.cpp:58-62 *)
Definition file_load (fs : files) (name : text) : option bool * cfile :=
  file_update fs true (CF name (-1) no_config).

Definition loaded (name : text) (r : option bool) (c : client) : client :=
  match r with Some ok => emit (FLoad name ok) c | None => c end.
Definition update_file (check : bool) (c : client) : bool * client :=
  let '(r, f) := file_update (disk (cl_updates c)) check (cl_file c) in
  (match r with Some ok => ok | None => false end,
   loaded (cf_name f) r (c_updates (S (cl_updates c)) (c_file f c))).

(** ClientState.cpp:95-121; the swap of an element of the list with m_config_file *)
Fixpoint swap_recent (name : text) (f : cfile) (l : list cfile) : option (cfile * list cfile) :=
  match l with
  | [] => None
  | x :: r => if text_eqb (cf_name x) name then Some (x, f :: r)
              else match swap_recent name f r with
                   | Some (y, r') => Some (y, x :: r')
                   | None => None
                   end
  end.
Definition load_config (name : text) (c : client) : bool * client :=
  if text_eqb (cf_name (cl_file c)) name then update_file false c
  else
    match swap_recent name (cl_file c) (cl_recent c) with
    | None =>
        let '(r, f) := file_load (disk (cl_updates c)) name in
        let c := loaded name r (c_updates (S (cl_updates c)) c) in
        if match r with Some ok => ok | None => false end then
          (true, c_file f (match cf_name (cl_file c) with
                           | [] => c
                           | _ => c_recent (cl_recent c ++ [cl_file c]) c
                           end))
        else (false, match cf_name (cl_file c) with [] => c_file f c | _ => c end)
    | Some (f, l) => update_file false (c_file f (c_recent l c))
    end.

(** ** Contexts *)

(** ClientState.cpp:189-196 *)
Fixpoint matching_contexts (w : window) (i : Z) (l : list cctx) : list Z :=
  match l with
  | [] => []
  | x :: r => if context_matches search w x then i :: matching_contexts w (i + 1) r
              else matching_contexts w (i + 1) r
  end.

Definition zlist_eqb (a b : list Z) : bool :=
  if list_eq_dec Z.eq_dec a b then true else false.

(** ClientState.cpp:174-204 *)
Definition update_active_contexts (c : client) : bool * client :=
  if negb (cl_active c) then (false, c)
  else
    let changed := focus (cl_focus c) in
    let c := match changed with
             | Some w => emit (FWindow w) (c_window w (S (cl_focus c)) c)
             | None => c_window (cl_window c) (S (cl_focus c)) c
             end in
    if match changed, cl_active_contexts c with None, _ :: _ => true | _, _ => false end then (false, c)
    else
      let l := matching_contexts (cl_window c) 0 (cfg_contexts (cl_config c)) in
      if zlist_eqb l (cl_active_contexts c) then (false, c) else (true, c_contexts l c).

(** ClientState.cpp:206-209 *)
Definition send_active_contexts (c : client) : bool * client :=
  send (SActive (cl_active_contexts c)) c.

(** ClientState.cpp:134-150 *)
Definition send_config (c : client) : bool * client :=
  let '(ok, c) := send (SConfig (cl_config c)) c in
  if negb ok then (false, c)
  else
    let c := c_contexts [] (c_aliases (cfg_aliases (cl_config c)) c) in
    (true, if cl_active c then snd (send_active_contexts (snd (update_active_contexts c))) else c).

(** ClientState.cpp:152-159 *)
Definition toggle_active (c : client) : client :=
  let c := emit (FActive (negb (cl_active c))) (c_active (negb (cl_active c)) c) in
  let c := if cl_active c then snd (update_active_contexts c) else c_contexts [] c in
  snd (send_active_contexts c).

(** ** Virtual keys and keymapperctl *)

Definition answer (socket : N) (m : amsg) (c : client) : client := emit (FAnswer socket m) c.

(** ControlPort.cpp:70-75 *)
Definition get_virtual_key_state (k : key) (c : client) : kstate * client :=
  if is_virtual_key k then
    match nth_error (cl_down c) (N.to_nat (k - first_virtual)) with
    | Some b => (if b then Down else Up, c)
    | None => (Up, c_down (cl_down c) true c)
    end
  else (Not, c).

(** ControlPort.cpp:77-87 *)
Definition send_virtual_key_state (socket : N) (k : key) (c : client) : client :=
  let '(s, c) := get_virtual_key_state k c in answer socket (AVirtual k s) c.

(** ControlPort.cpp:45-51 *)
Fixpoint notify_loop (k : key) (l : list control) (c : client) : list control * client :=
  match l with
  | [] => ([], c)
  | x :: r =>
      if ct_notify x =? k then
        let c := send_virtual_key_state (ct_socket x) k c in
        let '(r', c) := notify_loop k r c in
        (Ctl (ct_socket x) (ct_id x) 0 (ct_info x) :: r', c)
      else let '(r', c) := notify_loop k r c in (x :: r', c)
  end.

(** ControlPort.cpp:38-43 *)
Definition on_virtual_key_state_changed (k st : N) (c : client) : client :=
  if is_virtual_key k then
    let i := N.to_nat (k - first_virtual) in
    let c := if Nat.ltb i (length (cl_down c))
             then c_down (update_at i (fun _ => st =? state_code Down) (cl_down c)) (cl_ub c) c
             else c_down (cl_down c) true c in
    let '(l, c) := notify_loop k (cl_controls c) c in
    c_controls l c
  else c.

(** ControlPort.cpp:58-68 *)
Fixpoint find_alias (name : text) (l : list (text * key)) : key :=
  match l with
  | [] => 0
  | (n, k) :: r => if text_eqb n name then k else find_alias name r
  end.
Definition get_virtual_key (name : text) (c : client) : key :=
  let k := get_key_by_name name in
  let k := if k =? 0 then find_alias name (cl_aliases c) else k in
  if is_virtual_key k then k else 0.

Definition update_control (socket : N) (f : control -> control) (l : list control) : list control :=
  map (fun x => if ct_socket x =? socket then f x else x) l.
Definition get_control (socket : N) (l : list control) : option control :=
  find (fun x => ct_socket x =? socket) l.

(** ControlPort.cpp:89-98 *)
Definition on_toggle_requested (socket : N) (k : key) (c : client) : client :=
  if k =? 0 then send_virtual_key_state socket k c
  else c_controls (update_control socket (fun x => Ctl (ct_socket x) (ct_id x) k (ct_info x)) (cl_controls c)) c.

(** ControlPort.cpp:108-120 *)
Definition trivial_id (id : text) : bool := text_eqb id [] || text_eqb id (T "0").
Definition disconnect_by_instance_id (id : text) (c : client) : client :=
  if trivial_id id then c
  else
    let gone := List.filter (fun x => text_eqb (ct_id x) id) (cl_controls c) in
    fold_left (fun c x => emit (FClosed (ct_socket x)) c) gone
      (c_controls (List.filter (fun x => negb (text_eqb (ct_id x) id)) (cl_controls c)) c).

(** ControlPort.cpp:100-106 *)
Definition on_set_instance_id (socket : N) (id : text) (c : client) : client :=
  match get_control socket (cl_controls c) with
  | Some x =>
      if text_eqb (ct_id x) id then c
      else
        let c := disconnect_by_instance_id id c in
        c_controls (update_control socket (fun x => Ctl (ct_socket x) id (ct_notify x) (ct_info x)) (cl_controls c)) c
  | None => c
  end.

(** ControlPort.cpp:133-136 *)
Definition on_next_key_requested (socket : N) (c : client) : client :=
  c_controls (update_control socket (fun x => Ctl (ct_socket x) (ct_id x) (ct_notify x) true) (cl_controls c)) c.

(** ControlPort.cpp:138-149 *)
Fixpoint reply_loop (t : text) (l : list control) (c : client) : bool * list control * client :=
  match l with
  | [] => (false, [], c)
  | x :: r =>
      let c := if ct_info x then answer (ct_socket x) (ANextKeyInfo t) c else c in
      let '(b, r', c) := reply_loop t r c in
      (ct_info x || b, Ctl (ct_socket x) (ct_id x) (ct_notify x) false :: r', c)
  end.

(** ClientState.cpp:258-279; None is false *)
Definition parse_injected (t : text) : option sequence :=
  match parse_sequence false get_key_by_name typer None t with
  | POk (l, _) => Some (ensure_all_keys_up (replace_logical_keys l))
  | _ => None
  end.

Definition answer_bool (socket : N) (b : bool) (c : client) : client :=
  answer socket (AVirtual 0 (if b then Down else Up)) c.

(** ControlPort.cpp:151-205 and the handlers ClientState.cpp:59-67, 250-279.  A state
    which is none of KeyState's values is passed on as Not. *)
Definition state_of (n : N) : kstate :=
  match n with
  | 0 => Up | 1 => Down | 3 => UpAsync | 4 => DownAsync | 5 => NoMightMatch
  | 6 => OutputOnRelease | 7 => DownMatched | 8 => UpMatched | 9 => NotTimeoutUpDown | _ => Not
  end.
Definition on_control_message (socket : N) (m : rcall) (c : client) : client :=
  let c := emit (FAsked socket m) c in
  match m with
  | QGet n => send_virtual_key_state socket (get_virtual_key n c) c
  | QSet n s =>
      let k := get_virtual_key n c in
      let c := snd (send (SVirtual k (state_of s)) c) in
      send_virtual_key_state socket k c
  | QNotify n => on_toggle_requested socket (get_virtual_key n c) c
  | QInstance id => send_virtual_key_state socket 0 (on_set_instance_id socket id c)
  | QConfig name =>
      let '(ok, c) := load_config name c in
      let '(ok, c) := if ok then send_config c else (false, c) in
      answer_bool socket ok c
  | QNextKey => snd (send SNextKey (on_next_key_requested socket c))
  | QInjectInput t =>
      match parse_injected t with
      | Some l => answer_bool socket true (snd (send (SInjectInput l) c))
      | None => answer_bool socket false c
      end
  | QInjectOutput t =>
      match parse_injected t with
      | Some l => answer_bool socket true (snd (send (SInjectOutput l) c))
      | None => answer_bool socket false c
      end
  end.

(** ControlPort.cpp:122-131.  [reads] tells what read_messages handles for a connection
    and returns.  A connection which was closed while another one was read is not visited
    (the iterator goes to the next one which is left). *)
Fixpoint control_loop (reads : N -> list rcall * bool) (sockets : list N) (c : client) : client :=
  match sockets with
  | [] => c
  | s :: r =>
      match get_control s (cl_controls c) with
      | None => control_loop reads r c
      | Some _ =>
          let '(l, ok) := reads s in
          let c := fold_left (fun c m => on_control_message s m c) l c in
          control_loop reads r
            (if ok then c
             else emit (FClosed s)
                    (c_controls (List.filter (fun x => negb (ct_socket x =? s)) (cl_controls c)) c))
      end
  end.
Definition read_control_messages (reads : N -> list rcall * bool) (c : client) : client :=
  control_loop reads (map ct_socket (cl_controls c)) c.

(** ControlPort.cpp:24-31; std::map::emplace in the order of the sockets *)
Fixpoint insert_control (x : control) (l : list control) : list control :=
  match l with
  | [] => [x]
  | y :: r => if ct_socket x <? ct_socket y then x :: l
              else if ct_socket x =? ct_socket y then l
              else y :: insert_control x r
  end.
Definition accept_control (socket : N) (c : client) : client :=
  emit (FAccepted socket) (c_controls (insert_control (Ctl socket [] 0 false) (cl_controls c)) c).

(** ** Messages of the server *)

Definition nl : ascii := ascii_of_N 10.
Fixpoint hex_digits (n : nat) (v : N) : text :=
  match n with
  | O => []
  | S m => hex_digits m (v / 16) ++
           [let d := v mod 16 in ascii_of_N (if d <? 10 then 48 + d else 55 + d)]
  end.
(** ClientState.cpp:223-241 *)
Definition key_info_text (k : key) (name id : text) (w : window) : text :=
  let line (label value : text) := match value with [] => [] | _ => [label ++ T " = '" ++ value ++ T "'"] end in
  let lines :=
    (match key_name k with Some n => [T "key_name = '" ++ n ++ T "'"] | None => [] end) ++
    [T "scan_code = 0x" ++ hex_digits 4 k] ++ [T "system = '" ++ system ++ T "'"] ++
    line (T "title") (w_title w) ++ line (T "class") (w_class w) ++ line (T "path") (w_path w) ++
    line (T "device") name ++ line (T "device-id") id in
  removelast (flat_map (fun l => l ++ [nl]) lines).

(** ServerPort.cpp:144-169, ClientState.cpp:43-57, 223-244.  The flag of a control is
    exchanged for all, whether or not one was set. *)
Definition on_server_message (m : ccall) (c : client) : client :=
  let c := emit (FGot m) c in
  match m with
  | DAction i =>
      if (0 <=? i)%Z then
        match nth_error (cfg_actions (cl_config c)) (Z.to_nat i) with
        | Some command => emit (FExecute command) c
        | None => c
        end
      else c
  | DVirtual k st => on_virtual_key_state_changed k st c
  | DNextKeyInfo k name id =>
      let t := key_info_text k name id (cl_window c) in
      let '(b, l, c) := reply_loop t (cl_controls c) c in
      let c := c_controls l c in
      if b then c else emit (FShow t) c
  end.

(** ** The main loop *)

(** ClientState.cpp:89-93, ControlPort.cpp:11-16.  The windows properties stay
    (FocusedWindowImpl.cpp:37-39). *)
Definition on_server_disconnected (c : client) : client :=
  emit FLost (c_controls [] (c_aliases [] (c_down no_keys_down (cl_ub c) c))).

(** unix/main.cpp:145-154; the result tells whether the client goes on *)
Definition connect (c : client) : bool * client := send_config (c_sent false (cl_sends c) c).

(** What one turn of the loop gets from outside: whether the file is checked for changes,
    the messages of the server and whether the connection is still open, a new control
    connection, and what the control connections sent. *)
Record turn : Type := Turn {
  tu_auto : bool;
  tu_server : list ccall * bool;
  tu_accept : option N;
  tu_control : N -> list rcall * bool
}.
(** unix/main.cpp:118-137 without the tray icon; false when the loop was left *)
Definition loop_turn (t : turn) (c : client) : bool * client :=
  let '(changed, c) := if tu_auto t then update_file true c else (false, c) in
  let '(ok, c) := if changed then send_config c else (true, c) in
  if negb ok then (false, c)
  else
    let '(changed, c) := update_active_contexts c in
    let '(ok, c) := if changed then send_active_contexts c else (true, c) in
    if negb ok then (false, c)
    else
      let c := fold_left (fun c m => on_server_message m c) (fst (tu_server t)) c in
      if negb (snd (tu_server t)) then (false, c)
      else
        let c := match tu_accept t with Some s => accept_control s c | None => c end in
        (true, read_control_messages (tu_control t) c).

(** What happens to a client: turns of the loop, the tray icon (unix/main.cpp:63-65, 91-99). *)
Inductive cstep : Type :=
| CTurn (t : turn)
| CToggle
| CReload
| CNextKeyRequest.

(** unix/main.cpp:140-168: when the connection is lost it is established again; false when
    that fails and the client ends. *)
Definition client_step (s : cstep) (c : client) : bool * client :=
  match s with
  | CTurn t =>
      let '(ok, c) := loop_turn t c in
      if ok then (true, c) else connect (on_server_disconnected c)
  | CToggle => (true, toggle_active c)
  | CReload => (true, snd (send_config (snd (update_file false c))))
  | CNextKeyRequest => (true, snd (send SNextKey c))
  end.

(** unix/main.cpp:252-258, 140-168 *)
Fixpoint client_run (l : list cstep) (c : client) : client :=
  match l with
  | [] => c
  | s :: r => let '(ok, c') := client_step s c in if ok then client_run r c' else c'
  end.
Definition start_client (name : text) : bool * client :=
  connect (snd (load_config name new_client)).
Definition client_main (name : text) (l : list cstep) : client :=
  let '(ok, c) := start_client name in if ok then client_run l c else c.

End Client.
