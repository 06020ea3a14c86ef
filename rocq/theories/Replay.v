(** Helpers to replay the project's own tests on the model (src/test/test.cpp);
    they are evidence that the model is faithful, not proofs. *)
From Coq Require Import String Ascii List NArith ZArith Bool.
From Verif Require Import Base Key KeyNames Text Match ParseSeq Stage Config MultiStage Server.
Import ListNotations.
Open Scope N_scope.

(** client/unix/StringTyperGeneric.cpp, StringTyperImpl.cpp:50-75 (ASCII only) *)
Fixpoint unescape (t : text) : text :=
  match t with
  | b :: ((c :: r) as q) =>
      if (code b =? 92) && ((code c =? 110) || (code c =? 114)) then ascii_of_N 13 :: unescape r
      else if (code b =? 92) && (code c =? 116) then ascii_of_N 9 :: unescape r
      else b :: unescape q
  | _ => t
  end.
Definition type_char (c : ascii) : list stroke :=
  let k := lookup_common [c] in
  if is_digit c || in_codes 65 90 c then [Stroke k (if is_digit c then 0 else 1) 0]
  else if in_codes 97 122 c then [Stroke (lookup_common [ascii_of_N (code c - 32)]) 0 0]
  else if code c =? 32 then [Stroke (lookup_common (T "Space")) 0 0]
  else if code c =? 9 then [Stroke (lookup_common (T "Tab")) 0 0]
  else if code c =? 13 then [Stroke (lookup_common (T "Enter")) 0 0]
  else if code c =? 63 then [Stroke (lookup_common (T "Slash")) 1 0]
  else [].
Definition generic_typer (_ : option (key * bool)) (t : text) : list stroke :=
  flat_map type_char (unescape t).

(** Stand-in for std::regex: rejects unbalanced parentheses. *)
Definition parens_ok (t : text) (_ : bool) : bool :=
  Nat.eqb (length (List.filter (fun c => code c =? 40) t))
          (length (List.filter (fun c => code c =? 41) t)).
Definition parse_cfg (t : text) : pres config :=
  parse_config generic_typer parens_ok (fun _ => None) (T "Linux") t.

(** test.cpp: parse_input, parse_output *)
Definition test_input (s : string) : pres sequence :=
  match parse_sequence true get_key_by_name (generic_typer None) None (T s) with
  | POk (l, _) => POk l | PErr => PErr | PUB => PUB | PFuel => PFuel end.
Definition test_output (s : string) : pres sequence :=
  match parse_sequence false get_key_by_name (generic_typer None) None (T s) with
  | POk (l, _) => POk l | PErr => PErr | PUB => PUB | PFuel => PFuel end.

(** test.cpp: parse_sequence *)
Fixpoint read_events (fuel : nat) (it : text) : option sequence :=
  match fuel with
  | O => None
  | S f =>
      match it with
      | [] => Some []
      | c :: r =>
          match try_read_timeout it with
          | TYes v q => option_map (cons (make_input_timeout_event (Z.of_N v)))
                                   (read_events f (skip_space q))
          | _ =>
              let st := if Ascii.eqb c "-"%char then Some Up
                        else if Ascii.eqb c "+"%char then Some Down else None in
              match st with
              | None => None
              | Some st =>
                  let '(n, q) := read_ident r in
                  match get_key_by_name n with
                  | 0 => None
                  | k => option_map (cons (ev0 k st)) (read_events f (skip_space q))
                  end
              end
          end
      end
  end.
Definition events (s : string) : option sequence :=
  read_events (S (length (T s))) (skip_space (T s)).

(** test.cpp: operator<<, format_sequence *)
Fixpoint name_of (k : key) (l : list (string * key)) : option text :=
  match l with
  | [] => None
  | (n, x) :: r => if x =? k then Some (T n) else name_of k r
  end.
Definition format_state (st : kstate) : text :=
  T (match st with
     | Up => "-" | Down => "+" | UpAsync => "~" | DownAsync => "*" | Not => "!"
     | DownMatched => "#" | UpMatched => "=" | OutputOnRelease => "^"
     | NoMightMatch => "?" | NotTimeoutUpDown => "?" end)%string.
Definition format_key (e : event) : text :=
  let k := ek e in
  if is_virtual_key k then T "Virtual" ++ to_string_N (k - first_virtual)
  else if is_action_key k then T "Action" ++ to_string_N (k - first_action)
  else if k =? k_timeout then to_string_N (ev e) ++ T "ms"
  else match name_of k (key_names ++ [("Any", k_any); ("ContextActive", k_ContextActive)]%string) with
       | Some n => n
       | None => if k =? k_none then [] else T "???"
       end.
Fixpoint format_sequence (l : sequence) : text :=
  match l with
  | [] => []
  | [e] => format_state (es e) ++ format_key e
  | e :: r => format_state (es e) ++ format_key e ++ T " " ++ format_sequence r
  end.
Definition fmt (l : sequence) : string := string_of_list_ascii (format_sequence l).

(** Config contexts to stage contexts (test.cpp create_stage; server/ClientPort.cpp
    read_config transfers the same fields). *)
Definition stage_filter (f : filter) : option (list N -> bool) :=
  match f_string f with
  | [] => None
  | s => Some (fun t => xorb (text_eqb s (map ascii_of_N t)) (f_invert f))
  end.
Definition stage_context (x : cctx) : context :=
  {| cx_inputs := cc_inputs x; cx_outputs := cc_outputs x; cx_commands := cc_commands x;
     cx_devf := stage_filter (cc_dev x); cx_devidf := stage_filter (cc_devid x);
     cx_mods := cc_mods x; cx_bits := 2 ^ 64 - 1; cx_inv := cc_inv x; cx_fall := cc_fall x |}.

Inductive op : Type :=
| OIn (input output : string)       (* apply_input(stage, input) == output *)
| OTimeout (ms : Z) (output : string) (* apply_input(stage, reply_timeout_ms(ms)) *)
| OSeq (sq : string)                (* format_sequence(stage.sequence()) *)
| OClear (b : bool)                 (* stage.is_clear() *)
| OCtx (l : list nat) (output : option string)
| OSize (n : nat)                   (* stage.contexts().size() *)
| ODown (l : list string)           (* stage.get_output_keys_down() *)
| OHist (n : nat)                   (* stage.history_size() *)
| OValidate (l : list string).      (* validate_state with these keys pressed *)

Fixpoint run_events (cs : list context) (l : sequence) (s : state) (acc : sequence)
  : state * sequence :=
  match l with
  | [] => (s, acc)
  | e :: r => let '(s, o) := update cs e 0 s in run_events cs r s (acc ++ o)
  end.

Definition step (cs : list context) (o : op) (s : state) : state * bool :=
  match o with
  | OIn i out => match events i with
                 | Some l => let '(s, o) := run_events cs l s [] in (s, String.eqb (fmt o) out)
                 | None => (s, false)
                 end
  | OTimeout ms out =>
      let '(s, o) := update cs (make_input_timeout_event ms) 0 s in (s, String.eqb (fmt o) out)
  | OSeq sq => (s, String.eqb (fmt (s_seq s)) sq)
  | OClear b => (s, Bool.eqb (is_clear s) b)
  | OCtx l out => let '(s, o) := set_active_client_contexts cs l s in
                  (s, match out with Some t => String.eqb (fmt o) t | None => true end)
  | OSize n => (s, Nat.eqb (length cs) n)
  | ODown l => (s, match map (fun n => get_key_by_name (T n)) l, get_output_keys_down s with
                   | a, b => Nat.eqb (length a) (length b)
                             && forallb (fun p => fst p =? snd p) (combine a b)
                   end)
  | OHist n => (s, Nat.eqb (length (s_hist s)) n)
  | OValidate l => (validate_state (fun k => existsb (fun n => get_key_by_name (T n) =? k) l) s, true)
  end.

(** Number of the first failing operation, or a message. *)
Inductive verdict : Type := Pass | FailAt (n : nat) (sq : string) | NoConfig | Undefined.
Fixpoint steps (cs : list context) (l : list op) (n : nat) (s : state) : verdict :=
  match l with
  | [] => if s_ub s || s_oof s then Undefined else Pass
  | o :: r => let '(s', ok) := step cs o s in
              if ok then steps cs r (S n) s'
              else FailAt n (match o with
                             | OIn i _ => match events i with
                                          | Some l => fmt (snd (run_events cs l s []))
                                          | None => "bad input"%string end
                             | _ => fmt (s_seq s')
                             end)
  end.
Definition replay (lines : string) (activate : bool) (l : list op) : verdict :=
  match parse_cfg (T lines) with
  | POk c =>
      let cs := new_stage (map stage_context (cfg_contexts c)) in
      let s := if activate
               then fst (set_active_client_contexts cs (seq 0 (length cs)) init_state)
               else init_state in
      steps cs l 0 s
  | _ => NoConfig
  end.

(** * For test1 and test2 *)

Definition match_test (expr sq : string) : option mresult :=
  match test_input expr, events sq with
  | POk ex, Some l => match match_keys ex l with Some (r, _, _) => Some r | None => None end
  | _, _ => None
  end.

Definition config_ok (t : string) : bool :=
  match parse_cfg (T t) with POk _ => true | _ => false end.

Inductive kcheck : Type :=
| KContexts (n : nat) | KInputs (c n : nat) | KOutputs (c n : nat) | KCommands (c n : nat)
| KInput (c i : nat) (t : string) | KOutput (c i : nat) (t : string)
| KCommand (c i : nat) (t : string) | KMods (c : nat) (t : string)
| KIndex (c i : nat) (idx : Z) | KStage (c : nat) (b : bool) | KFall (c : nat) (b : bool)
| KActions (n : nat) | KAction (i : nat) (t : string).

Definition kctx (cfg : config) (c : nat) (f : cctx -> bool) : bool :=
  match nth_error (cfg_contexts cfg) c with Some x => f x | None => false end.
Definition kfmt (o : option sequence) (t : string) : bool :=
  match o with Some l => String.eqb (fmt l) t | None => false end.
Definition kcheck_ok (cfg : config) (k : kcheck) : bool :=
  match k with
  | KContexts n => Nat.eqb (length (cfg_contexts cfg)) n
  | KInputs c n => kctx cfg c (fun x => Nat.eqb (length (cc_inputs x)) n)
  | KOutputs c n => kctx cfg c (fun x => Nat.eqb (length (cc_outputs x)) n)
  | KCommands c n => kctx cfg c (fun x => Nat.eqb (length (cc_commands x)) n)
  | KInput c i t => kctx cfg c (fun x => kfmt (option_map in_seq (nth_error (cc_inputs x) i)) t)
  | KOutput c i t => kctx cfg c (fun x => kfmt (nth_error (cc_outputs x) i) t)
  | KCommand c i t => kctx cfg c (fun x => kfmt (option_map cm_out (nth_error (cc_commands x) i)) t)
  | KMods c t => kctx cfg c (fun x => kfmt (Some (cc_mods x)) t)
  | KIndex c i z => kctx cfg c (fun x => match nth_error (cc_inputs x) i with
                                         | Some y => (in_out y =? z)%Z | None => false end)
  | KStage c b => kctx cfg c (fun x => Bool.eqb (cc_stage x) b)
  | KFall c b => kctx cfg c (fun x => Bool.eqb (cc_fall x) b)
  | KActions n => Nat.eqb (length (cfg_actions cfg)) n
  | KAction i t => match nth_error (cfg_actions cfg) i with
                   | Some a => text_eqb a (T t) | None => false end
  end.
Definition config_test (t : string) (l : list kcheck) : bool :=
  match parse_cfg (T t) with
  | POk c => forallb (kcheck_ok c) l
  | _ => false
  end.

(** * For test4 (src/test/test4_Server.cpp:44-145) *)

(** Stand-in for regular expressions: the text between the slashes is searched for. *)
Fixpoint is_prefix (p t : text) : bool :=
  match p, t with
  | [], _ => true
  | a :: p', b :: t' => Ascii.eqb a b && is_prefix p' t'
  | _, [] => false
  end.
Fixpoint is_substring (p t : text) : bool :=
  is_prefix p t || match t with [] => false | _ :: t' => is_substring p t' end.
Definition server_filter (f : filter) : option (list N -> bool) :=
  match f_string f with
  | [] => None
  | c :: s =>
      Some (fun t => let t := map ascii_of_N t in
                     xorb (if Ascii.eqb c "/"%char then is_substring (removelast s) t
                           else text_eqb (c :: s) t) (f_invert f))
  end.
Definition server_context (x : cctx) : bool * context :=
  (cc_stage x,
   {| cx_inputs := cc_inputs x; cx_outputs := cc_outputs x; cx_commands := cc_commands x;
      cx_devf := server_filter (cc_dev x); cx_devidf := server_filter (cc_devid x);
      cx_mods := cc_mods x; cx_bits := 2 ^ 64 - 1; cx_inv := cc_inv x; cx_fall := cc_fall x |}).
Definition server_config (t : string) : option mstage :=
  match parse_cfg (T t) with
  | POk c => Some (new_multi_stage (split_stages (map server_context (cfg_contexts c)) []))
  | _ => None
  end.

Definition no_clock (_ : nat) : Z := 0%Z.
Definition all_sent (_ : nat) : bool := true.

Inductive sop : Type :=
| TIn (input : string) (dev : Z) (output : string)
| TFlush (output : string)
| TReached (output : string)
| TNotReached (output : string)
| TClear
| TCtx (l : list Z) (output : string)
| TActions (n : nat)
| TDevices (l : list (string * string)).

(** The events sent since the trace had length [n]. *)
Definition sent_since (n : nat) (s : server) : sequence :=
  flat_map (fun x => match x with ESend e true => [e] | _ => [] end)
           (rev (firstn (length (sv_trace s) - n) (sv_trace s))).
Definition actions_since (n : nat) (s : server) : nat :=
  length (List.filter (fun x => match x with EAction _ => true | _ => false end)
                 (firstn (length (sv_trace s) - n) (sv_trace s))).

Definition apply_all (l : sequence) (dev : Z) (s : server) : server :=
  flush_unless_scheduled no_clock all_sent
    (fold_left (fun s e => fst (translate_input no_clock all_sent e dev s)) l s).
Definition codes (s : string) : list N := map N_of_ascii (T s).

Definition sstep (o : sop) (n : nat) (s : server) : server * nat * bool :=
  let k := length (sv_trace s) in
  match o with
  | TIn i dev out =>
      match events i with
      | Some l => let s := apply_all l dev s in (s, n, String.eqb (fmt (sent_since k s)) out)
      | None => (s, n, false)
      end
  | TFlush out => let s := fst (flush_send_buffer no_clock all_sent s) in
                  (s, n, String.eqb (fmt (sent_since k s)) out)
  | TReached out =>
      let e := expired_event (sv_timeout s) in
      let s := apply_all [e] any_device (cancel_timeout s) in
      (s, n, String.eqb (fmt (sent_since k s)) out)
  | TNotReached out =>
      let e := expired_event (SpecFloat.SFsub 53 1024 (sv_timeout s) (duration_of_ms 1)) in
      let s := apply_all [e] any_device (cancel_timeout s) in
      (s, n, String.eqb (fmt (sent_since k s)) out)
  | TClear => (s, n, m_is_clear (sv_stage s))
  | TCtx l out => let s := on_message no_clock all_sent (MContexts l) s in
                  (s, n, String.eqb (fmt (sent_since k s)) out)
  | TActions c => (s, k, Nat.eqb (actions_since n s) c)
  | TDevices l => (set_device_descs no_clock all_sent
                     (map (fun p => Dev (codes (fst p)) (codes (snd p))) l) s, n, true)
  end.
Fixpoint ssteps (l : list sop) (i n : nat) (s : server) : verdict :=
  match l with
  | [] => if sv_oof s || existsb (fun st => s_ub (snd st) || s_oof (snd st)) (m_stages (sv_stage s))
          then Undefined else Pass
  | o :: r => let '(s', n', ok) := sstep o n s in
              if ok then ssteps r (S i) n' s'
              else FailAt i (fmt (sent_since (length (sv_trace s)) s'))
  end.
Definition replay_server (lines : string) (activate : bool) (l : list sop) : verdict :=
  match server_config lines with
  | Some m =>
      let s := on_message no_clock all_sent (MConfig (Some m)) init_server in
      let s := on_message no_clock all_sent
                 (MContexts (if activate then map Z.of_nat (seq 0 (context_count m)) else [])) s in
      let s := set_device_descs no_clock all_sent [Dev (codes "Device0") []] s in
      ssteps l 0 0 s
  | None => NoConfig
  end.
