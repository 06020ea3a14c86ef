(** Model of src/client/windows/execute_terminal_command.cpp and
    src/client/windows/FocusedWindow.cpp, and of validate_state and the timer which calls
    it in src/client/windows/main.cpp. *)
From Coq Require Import List Arith NArith Bool.
From Verif Require Import Base.
Import ListNotations.
Local Open Scope N_scope.

(** Wide characters, as numbers below 65536 *)
Definition wide : Type := list N.

(** ** execute_terminal_command.cpp *)

Definition dquote : N := 34.
Definition squote : N := 39.

Section Files.
(** execute_terminal_command.cpp:5-7 file_exists; GetFileAttributesW fails for an empty
    name. *)
Variable file_exists : wide -> bool.

(** std::strchr converts the character to a char; it also finds the end of its string. *)
Definition control_characters : list N := [38; 124; 62; 37; 36; 0].
Definition strchr (c : N) : bool := existsb (N.eqb (c mod 256)) control_characters.

(** execute_terminal_command.cpp:9-19 contains_terminal_control_characters *)
Fixpoint contains_control (in_string : bool) (args : wide) : bool :=
  match args with
  | [] => false
  | c :: r =>
      let in_string := if c =? dquote then negb in_string else in_string in
      if negb in_string && strchr c then true else contains_control in_string r
  end.

(** find(c, 1) in the rest of a command: what stands before the next [c] *)
Fixpoint before (c : N) (l : wide) : option wide :=
  match l with
  | [] => None
  | x :: r => if x =? c then Some [] else option_map (cons x) (before c r)
  end.
(** execute_terminal_command.cpp:30-36: the string without its last character again and
    again; [n] is its length. *)
Fixpoint existing_prefix (n : nat) (command : wide) : wide :=
  match n with
  | O => []
  | S n' => if file_exists (firstn n command) then firstn n command else existing_prefix n' command
  end.
(** execute_terminal_command.cpp:21-37 get_filename *)
Definition get_filename (command : wide) : wide :=
  match command with
  | c :: r =>
      if (c =? squote) || (c =? dquote) then
        match before c r with
        | Some name => if file_exists name then name else []
        | None => []
        end
      else existing_prefix (length command) command
  | [] => []
  end.

(** execute_terminal_command.cpp:53-64: the command line which is passed to
    CreateProcess, in which CMD /C stands in front of commands for the terminal. *)
Definition cmd_c : wide := [67; 77; 68; 32; 47; 67; 32].
Definition execute_terminal_command (command : wide) : wide :=
  let filename := get_filename command in
  if negb (match filename with [] => true | _ => false end) &&
     negb (contains_control false (skipn (length filename) command))
  then command
  else cmd_c ++ command.
End Files.

(** ** FocusedWindow.cpp *)

(** What GetWindowTextW, GetClassNameW and QueryFullProcessImageNameW say of a window; no
    path when the process cannot be opened. *)
Record wwindow : Type := Ww { ww_title : wide; ww_class : wide; ww_path : option wide }.
(** FocusedWindow.cpp:8-14 the members; 0 is no handle *)
Record wfocus : Type := Wf { wf_handle : N; wf_title : wide; wf_class : wide; wf_path : wide }.
Definition no_focus : wfocus := Wf 0 [] [] [].
(** GetWindowTextW with a buffer of 1024 characters *)
Definition cut (l : wide) : wide := firstn 1023 l.
Fixpoint wide_eqb (a b : wide) : bool :=
  match a, b with
  | [], [] => true
  | x :: a, y :: b => (x =? y) && wide_eqb a b
  | _, _ => false
  end.
(** FocusedWindow.cpp:22-55 update.  [fg]: the focused window, if there is one.  lstrcmpW
    is taken for equality (it compares words of the user's language, in which some
    characters are ignored).  QueryFullProcessImageNameW fails when the buffer is too small.  Conversions to UTF-8 are left out. *)
Definition focus_update (fg : option (N * wwindow)) (f : wfocus) : bool * wfocus :=
  match fg with
  | None => (false, f)
  | Some (h, w) =>
      if (h =? wf_handle f) && wide_eqb (cut (ww_title w)) (wf_title f) then (false, f)
      else (true, Wf h (cut (ww_title w)) (cut (ww_class w)) (match ww_path w with Some p => if N.of_nat (length p) <? 1024 then p else [] | None => [] end))
  end.

(** ** main.cpp: validate_state *)

(** g_session_changed and g_was_inaccessible, main.cpp:46-47 *)
Record wvalid : Type := Wv { wv_session : bool; wv_inaccessible : bool }.
(** main.cpp:107-122; the result: is a message sent *)
Definition validate_state (inaccessible : bool) (v : wvalid) : bool * wvalid :=
  if wv_session v then (true, Wv false (wv_inaccessible v))
  else if inaccessible then (false, Wv false true)
  else if wv_inaccessible v then (true, Wv false false)
  else (false, v).
(** WM_WTSSESSION_CHANGE (main.cpp:209-211) and WM_TIMER (main.cpp:278-283) *)
Inductive vstep : Type := VSession | VTimer (inaccessible : bool).
Definition valid_step (st : vstep) (x : list bool * wvalid) : list bool * wvalid :=
  match st with
  | VSession => (fst x, Wv true (wv_inaccessible (snd x)))
  | VTimer i => let '(b, v) := validate_state i (snd x) in (fst x ++ [b], v)
  end.
Definition valid_run (l : list vstep) : list bool * wvalid :=
  fold_left (fun x st => valid_step st x) l ([], Wv false false).
