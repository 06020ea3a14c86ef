(** Model of how errors in a configuration are located, src/config/ParseConfig.cpp:258-302,
    409-423: the members m_filename and m_line_no, which parse_file sets and restores.  What a
    line means is in Config.v, where errors carry no text; here it is arbitrary. *)
From Coq Require Import String List Ascii Arith NArith Bool.
From Verif Require Import Base Text Config.
Import ListNotations.

Section Reader.
(** All other members of ParseConfig, and m_parsing_done (ParseConfig.cpp:277, by @done) *)
Variable St : Type.
Variable is_done : St -> bool.

(** What parse_line does: it succeeds, it calls error with a text, or it includes a file of
    the given name, if it can be opened (409-420); after that the rest of the line is read. *)
Inductive lresult : Type :=
| LOk (s : St)
| LFail (m : text)
| LInclude (name : text) (lines : option (list text)) (s : St) (after : St -> St + text).
Variable parse_line : text -> St -> lresult.

Record reader : Type := Rd { rd_file : text; rd_line : nat; rd_st : St }.
Definition put_st (s : St) (r : reader) : reader := Rd (rd_file r) (rd_line r) s.

(** ParseConfig.cpp:258-269 error: the text which is thrown *)
Definition config_error (m : text) (r : reader) : text :=
  let m := match rd_file r with [] => m | f => m ++ T " in file '" ++ f ++ T "'" end in
  if (rd_line r =? 0)%nat then m else m ++ T " in line " ++ to_string_N (N.of_nat (rd_line r)).

(** ParseConfig.cpp:280-282 *)
Definition strip_bom (l : text) : text := match skip bom l with Some q => q | None => l end.

(** ParseConfig.cpp:277-298: the lines of the file which is being read *)
Fixpoint read_lines (handle : text -> reader -> reader + text) (lines : list text) (prev : text) (r : reader) : reader + text :=
  match lines with
  | [] => inl r
  | l :: rest =>
      if is_done (rd_st r) then inl r
      else
        let l := if (rd_line r =? 0)%nat then strip_bom l else l in
        let r := Rd (rd_file r) (S (rd_line r)) (rd_st r) in
        let t := trim_space l in
        let complete := match handle (prev ++ l) r with inl r => read_lines handle rest [] r | inr e => inr e end in
        match back t with
        | Some x => if (code x =? 92)%N then read_lines handle rest (prev ++ pop_back t) r else complete
        | None => complete
        end
  end.

(** ParseConfig.cpp:271-302 and 409-423; [level] is the number of nested includes still
    allowed. *)
Fixpoint place_file (level : nat) (name : text) (lines : list text) (r : reader) : reader + text :=
  let handle line r :=
    match parse_line line (rd_st r) with
    | LOk s => inl (put_st s r)
    | LFail m => inr (config_error m r)
    | LInclude n None _ _ => inr (config_error (T "Opening include file '" ++ n ++ T "' failed") r)
    | LInclude n (Some ls) s after =>
        match level with
        | O => inr (config_error (T "Recursive includes detected") r)
        | S lv =>
            match place_file lv n ls (put_st s r) with
            | inl r => match after (rd_st r) with inl s => inl (put_st s r) | inr m => inr (config_error m r) end
            | inr e => inr e
            end
        end
    end in
  match read_lines handle lines [] (Rd name 0 (rd_st r)) with
  | inl r' => inl (Rd (rd_file r) (rd_line r) (rd_st r'))
  | inr e => inr e
  end.

(** ParseConfig.cpp:195-198, 221: the configuration itself has no name. *)
Definition place_config (lines : list text) (s : St) : reader + text := place_file 10 [] lines (Rd [] 0 s).
End Reader.
Arguments LOk {St}. Arguments LFail {St}. Arguments LInclude {St}.
Arguments Rd {St}. Arguments rd_file {St}. Arguments rd_line {St}. Arguments rd_st {St}.
