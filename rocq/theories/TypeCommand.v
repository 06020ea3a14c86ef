(** Model of src/control/windows/expand_command.cpp, what keymapperctl --type makes of its
    argument on Windows (Settings.cpp:89-92).  Wide characters are numbers.  The conversion of
    the output from the code page to wide characters (9-18) and the process itself are
    parameters. *)
From Coq Require Import List Arith NArith Bool.
From Verif Require Import Base WinCommand.
Import ListNotations.
Local Open Scope N_scope.

(** std::wstring_view::find: where the first occurrence begins *)
Fixpoint w_starts (p s : wide) : bool :=
  match p, s with
  | [], _ => true
  | c :: p, x :: s => (c =? x) && w_starts p s
  | _ :: _, [] => false
  end.
Fixpoint w_find (p s : wide) : option nat :=
  if w_starts p s then Some 0%nat
  else match s with
       | [] => None
       | _ :: s => option_map S (w_find p s)
       end.
(** back(), None: undefined for an empty text *)
Definition w_back (s : wide) : option N := match rev s with [] => None | c :: _ => Some c end.
(** substr(pos, n), None: out of range.  The difference of sizes wraps around below zero, then
    everything up to the end is taken. *)
Definition w_substr (pos : nat) (n : option nat) (s : wide) : option wide :=
  if (List.length s <? pos)%nat then None
  else Some (match n with Some n => firstn n (skipn pos s) | None => skipn pos s end).
Definition size_minus (s : wide) (k : nat) : option nat :=
  if (List.length s <? k)%nat then None else Some (List.length s - k)%nat.

(** One ReadFile from the pipe (51-57): whether it succeeded, whether the error is
    ERROR_MORE_DATA, and the bytes *)
Record pipe_read : Type := PR { pr_ok : bool; pr_more : bool; pr_bytes : list N }.
(** expand_command.cpp:50-62: reads until one fails *)
Fixpoint read_pipe (l : list pipe_read) : list N :=
  match l with
  | [] => []
  | r :: l => if negb (pr_ok r) && negb (pr_more r) then [] else pr_bytes r ++ read_pipe l
  end.

Section Process.
(** What a command line does: None when the pipe or the process cannot be created *)
Variable create : wide -> option (list pipe_read).
(** MultiByteToWideChar (9-18) *)
Variable to_wide : list N -> wide.

(** expand_command.cpp:20-75 *)
Definition get_process_output (commandline : wide) : wide :=
  match create commandline with
  | None => []
  | Some reads => to_wide (read_pipe reads)
  end.

(** expand_command.cpp:78-85: the command line which is run, if any, and the text; None is
    undefined or an exception *)
Definition dollar_open : wide := [36; 40].
Definition close_paren : N := 41.
Definition cmd_c : wide := [67; 77; 68; 32; 47; 67; 32].
Definition expand_command (argument : wide) : option (option wide * wide) :=
  match w_find dollar_open argument with
  | Some O =>
    match w_back argument with
    | None => None
    | Some c =>
      if negb (c =? close_paren) then Some (None, argument)
      else match w_substr 2 (size_minus argument 3) argument with
           | None => None
           | Some inner => let command := cmd_c ++ inner in Some (Some command, get_process_output command)
           end
    end
  | _ => Some (None, argument)
  end.
End Process.
