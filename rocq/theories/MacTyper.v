(** Model of the string typer on macOS: src/client/unix/StringTyperCarbon.cpp, and
    StringTyperImpl.cpp where it is not on Linux. *)
From Coq Require Import List Arith NArith Bool.
From Verif Require Import Base Key Text Typer.
Import ListNotations.
Local Open Scope N_scope.

(** What UCKeyTranslate says of a key: nothing, it is a dead key (the state is not zero), or
    characters, of which there is at least one.  The first argument is the dead key which came
    before.  The modifiers are those of StringTyper.h:10-15. *)
Inductive cresult : Type := CNothing | CDead (state : N) | CChars (c : N) (r : list N).
Definition clayout : Type := option N -> key * N -> cresult.

Section Carbon.
Variable lay : clayout.
(** The keys vk_to_key knows, by their virtual key codes (StringTyperCarbon.cpp:8-62) *)
Variable keys : list key.

(** StringTyperImpl.h:33-42 with the masks of StringTyperCarbon.cpp:81, and 64-70 *)
Definition mac_modifiers : list N := [0; 1; 2; 3; 8; 9; 10; 11].
Definition mac_strokes : list (key * N) :=
  flat_map (fun m => map (fun k => (k, m)) keys) mac_modifiers.

Definition put (c : N) (e : entry) (d : dictionary) : dictionary := fun x => if x =? c then Some e else d x.
(** StringTyperCarbon.cpp:101-118 *)
Definition add_after_dead (x : key * N) (state : N) (d : dictionary) : dictionary :=
  fold_left (fun d y =>
    match lay (Some state) y with
    | CChars c _ => match d c with None => put c [x; y] d | Some _ => d end
    | _ => d
    end) mac_strokes d.
(** StringTyperCarbon.cpp:84-122 *)
Definition add_stroke (d : dictionary) (x : key * N) : dictionary :=
  match lay None x with
  | CChars c _ =>
      match d c with
      | Some (_ :: _ :: _) | None => put c [x] d
      | Some _ => d
      end
  | CDead n => add_after_dead x n d
  | CNothing => d
  end.
Definition carbon_dictionary : dictionary := fold_left add_stroke mac_strokes (fun _ => None).
End Carbon.

(** StringTyperImpl.cpp:61-75, not on Linux *)
Definition mac_type_char (d : dictionary) (c : N) : list (key * N) :=
  match d c with
  | Some e => e
  | None => match d 63 with Some e => e | None => [] end
  end.
(** StringTyperImpl.cpp:55-76 *)
Definition mac_type (d : dictionary) (t : text) : option (list (key * N)) :=
  match utf8_to_utf32 t with
  | None => None
  | Some l =>
      Some (flat_map (mac_type_char d) (replace_all 92 116 9 (replace_all 92 114 13 (replace_all 92 110 13 l))))
  end.
