(** Specification side of the information about the next key (C116). *)
From Coq Require Import String Ascii List Arith NArith ZArith Bool.
From Verif Require Import Base Key Text Stage Config Serial Client ClientSpec.
Import ListNotations.
Local Open Scope N_scope.

Definition line_end : ascii := ascii_of_N 10.
(** The lines of a text *)
Fixpoint text_lines (t : text) : list text :=
  match t with
  | [] => [[]]
  | c :: r =>
      if Ascii.eqb c line_end then [] :: text_lines r
      else match text_lines r with l :: ls => (c :: l) :: ls | [] => [[c]] end
  end.
Definition one_line (t : text) : Prop := ~ In line_end t.
Definition entry (label value : text) : text := label ++ T " = '" ++ value ++ T "'".

(** What there is to say about a key: the device it came from and the focused window *)
Inductive says (key_name : key -> option text) (system : text) (k : key) (name id : text) (w : window) : text -> text -> Prop :=
| says_key n : key_name k = Some n -> says key_name system k name id w (T "key_name") n
| says_system : says key_name system k name id w (T "system") system
| says_title : w_title w <> [] -> says key_name system k name id w (T "title") (w_title w)
| says_class : w_class w <> [] -> says key_name system k name id w (T "class") (w_class w)
| says_path : w_path w <> [] -> says key_name system k name id w (T "path") (w_path w)
| says_device : name <> [] -> says key_name system k name id w (T "device") name
| says_id : id <> [] -> says key_name system k name id w (T "device-id") id.
Definition info_labels : list text :=
  map T ["key_name"; "system"; "title"; "class"; "path"; "device"; "device-id"]%string.

(** The value of hexadecimal digits *)
Definition hex_value (c : ascii) : option N :=
  let n := N_of_ascii c in
  if (48 <=? n) && (n <=? 57) then Some (n - 48)
  else if (65 <=? n) && (n <=? 70) then Some (n - 55) else None.
Fixpoint hex_number (acc : N) (t : text) : option N :=
  match t with
  | [] => Some acc
  | c :: r => match hex_value c with Some d => hex_number (acc * 16 + d) r | None => None end
  end.
(** A text says about a key exactly what there is to say. *)
Definition tells (key_name : key -> option text) (system : text) (k : key) (name id : text) (w : window) (t : text) : Prop :=
  (forall label value, In label info_labels -> one_line value ->
     (In (entry label value) (text_lines t) <-> says key_name system k name id w label value)) /\
  (forall digits, In (T "scan_code = 0x" ++ digits) (text_lines t) <-> hex_number 0 digits = Some k /\ length digits = 4%nat).

(** ** In the trace of a client *)

Definition info_of (e : ceffect) : option text :=
  match e with FAnswer _ (ANextKeyInfo t) | FShow t => Some t | _ => None end.
(** Every information is about the key the server reported last, and the window which had the
    focus then. *)
Definition infos_about (P : key -> text -> text -> window -> text -> Prop) (t : trace) : Prop :=
  forall p e q info, t = p ++ e :: q -> info_of e = Some info ->
  exists p1 k name id p2, p = p1 ++ FGot (DNextKeyInfo k name id) :: p2 /\
    Forall (fun x => info_of x <> None) p2 /\ P k name id (window_of p1) info.
(** Everything in it fits into a line. *)
Definition all_one_line (key_name : key -> option text) (system : text) (k : key) (name id : text) (w : window) : Prop :=
  (forall n, key_name k = Some n -> one_line n) /\ one_line system /\ one_line name /\ one_line id /\
  one_line (w_title w) /\ one_line (w_class w) /\ one_line (w_path w).
