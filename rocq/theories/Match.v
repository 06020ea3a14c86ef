(** Model of src/runtime/MatchKeySequence.cpp. *)
From Coq Require Import List NArith Bool.
From Verif Require Import Base Key.
Import ListNotations.
Open Scope N_scope.

(** MatchKeySequence.h:5 *)
Inductive mresult : Type := NoMatch | MightMatch | Matched.

Definition mresult_eqb (a b : mresult) : bool :=
  match a, b with
  | NoMatch, NoMatch | MightMatch, MightMatch | Matched, Matched => true
  | _, _ => false
  end.

(** MatchKeySequence.cpp:7-17 unifiable(KeyState, KeyState) *)
Definition norm_state (s : kstate) : kstate :=
  match s with DownMatched => Down | UpMatched => Up | s => s end.
Definition unif_state (a b : kstate) : bool := kstate_eqb (norm_state a) (norm_state b).

(** MatchKeySequence.cpp:19-32 unifiable(Key, Key) *)
Definition unif_key (a b : key) : bool :=
  if (a =? k_none) || (b =? k_none) then false
  else if a =? b then true
  else if (a =? k_timeout) || (b =? k_timeout) then false
  else if (a =? k_any) && is_keyboard_key b then true
  else if (b =? k_any) && is_keyboard_key a then true
  else false.

(** MatchKeySequence.cpp:35-39 timeout_unifiable *)
Definition unif_timeout (s e : event) : bool :=
  let reached := ev e <=? ev s in
  if is_not_timeout (es s) || is_not_timeout (es e) then negb reached else reached.

(** MatchKeySequence.cpp:41-52 unifiable(KeyEvent, KeyEvent) *)
Definition unif_event (a b : event) : bool :=
  if (ek a =? k_any) && kstate_eqb (es b) DownMatched then false
  else if (ek b =? k_any) && kstate_eqb (es a) DownMatched then false
  else if negb (unif_key (ek a) (ek b)) then false
  else if ek a =? k_timeout then unif_timeout a b
  else unif_state (es a) (es b).

(** Scratch state of one matching run: the vectors m_async, m_not_keys,
    m_ignore_ups, *any_key_matches, the flag is_no_might_match, the cursor e (only
    compared with 1, cpp:190) and whether a plain Down was consumed from the
    sequence (cpp:180-182). *)
Record mstate : Type := MS {
  ms_async : list event;
  ms_not : list key;
  ms_ign : list key;
  ms_any : list key;
  ms_nmm : bool;
  ms_e : nat;
  ms_down : bool
}.

Definition ms_init : mstate := MS [] [] [] [] false 0 false.

Definition matches_none : event := Ev k_none Up 0.  (* cpp:63 *)

Definition mem_key (k : key) (l : list key) : bool := existsb (N.eqb k) l.
Definition remove_key (k : key) (l : list key) : list key :=
  filter (fun x => negb (N.eqb x k)) l.

(** Result of a step of the loop: return, or go on having consumed from the
    expression and/or the sequence. *)
Inductive mstep : Type :=
| MRet (r : mresult) (t : option event)
| MGo (adv_e adv_s : bool) (m : mstate).

(** cpp:165-176: an Async Down for the key directly preceded by its Async Up. *)
Fixpoint unmatched_async_pair (k : key) (prev : option event) (l : list event) : bool :=
  match l with
  | [] => false
  | x :: r =>
      if event_eqb x (ev0 k DownAsync)
      then match prev with Some p => event_eqb p (ev0 k UpAsync) | None => false end
      else unmatched_async_pair k (Some x) r
  end.

(** Loop body, MatchKeySequence.cpp:72-215.  [se], [ee] are the current events or
    [matches_none] at the end; [at_end] is [s >= sequence.size()] (cpp:212). *)
Definition match_step (ee se : event) (at_end : bool) (m : mstate) : mstep :=
  let async_state := match es se with Up => UpAsync | _ => DownAsync end in
  (* cpp:78-80 undo adding to Not keys *)
  let nots := match es ee with
              | Down => remove_key (ek ee) (ms_not m)
              | _ => ms_not m
              end in
  let m := MS (ms_async m) nots (ms_ign m) (ms_any m) (ms_nmm m) (ms_e m) (ms_down m) in
  let adv_down := ms_down m || (negb at_end && kstate_eqb (es se) Down) in
  (* cpp:83-86 *)
  if (kstate_eqb (es se) Down || kstate_eqb (es se) DownMatched)
     && mem_key (ek se) (ms_not m)
  then MRet NoMatch None
  (* cpp:88-92 *)
  else if kstate_eqb (es ee) DownAsync || kstate_eqb (es ee) UpAsync
  then MGo true false
         (MS (ms_async m ++ [ee]) (ms_not m) (ms_ign m) (ms_any m) (ms_nmm m)
             (S (ms_e m)) (ms_down m))
  (* cpp:93-97 *)
  else if kstate_eqb (es ee) Not && negb (ek ee =? k_timeout)
  then MGo true false
         (MS (ms_async m) (ms_not m ++ [ek ee]) (ms_ign m) (ms_any m) (ms_nmm m)
             (S (ms_e m)) (ms_down m))
  (* cpp:98-105 *)
  else if (ek ee =? k_any) && kstate_eqb (es ee) Up
          && negb (ek se =? k_none) && kstate_eqb (es se) Up
  then if mem_key (ek se) (ms_any m)
       then MGo true true
              (MS (ms_async m) (ms_not m) (ms_ign m) (ms_any m) (ms_nmm m)
                  (S (ms_e m)) adv_down)
       else MRet NoMatch None
  (* cpp:106-118 *)
  else if unif_event se ee
  then MGo true true
         (MS (filter (fun x => negb (ek se =? ek x)) (ms_async m))
             (ms_not m) (ms_ign m)
             (if (ek ee =? k_any) && kstate_eqb (es se) Down
              then ms_any m ++ [ek se] else ms_any m)
             (ms_nmm m) (S (ms_e m)) adv_down)
  (* cpp:119-123 *)
  else if (ek ee =? k_timeout) && event_eqb se matches_none
  then MRet MightMatch (Some ee)
  (* cpp:124-127 *)
  else if kstate_eqb (es ee) NoMightMatch
  then MGo true false
         (MS (ms_async m) (ms_not m) (ms_ign m) (ms_any m) true
             (S (ms_e m)) (ms_down m))
  (* cpp:130-131 *)
  else if ms_nmm m && event_eqb ee matches_none
  then MRet NoMatch None
  else
  (* cpp:134-145 *)
  match find_index (fun x => kstate_eqb (es x) async_state && unif_key (ek se) (ek x))
                   (ms_async m) with
  | Some i =>
      MGo false true
        (MS (update_at i (set_es (es se)) (ms_async m)) (ms_not m) (ms_ign m)
            (ms_any m) (ms_nmm m) (ms_e m) adv_down)
  | None =>
  (* cpp:147-152 *)
  if kstate_eqb (es se) DownMatched || kstate_eqb (es se) UpMatched
  then MGo false true
         (MS (ms_async m) (ms_not m) (ms_ign m) (ms_any m) (ms_nmm m) (ms_e m) adv_down)
  else
  (* cpp:155-163 *)
  match find_index (fun x => unif_event ee x) (ms_async m) with
  | Some i =>
      MGo true false
        (MS (remove_at i (ms_async m)) (ms_not m) (ms_ign m) (ms_any m) (ms_nmm m)
            (S (ms_e m)) (ms_down m))
  | None =>
  (* cpp:165-176 *)
  if kstate_eqb (es ee) Down && unmatched_async_pair (ek ee) None (ms_async m)
  then MGo true false
         (MS (ms_async m) (ms_not m) (ms_ign m) (ms_any m) (ms_nmm m)
             (S (ms_e m)) (ms_down m))
  (* cpp:178-187 *)
  else if (ek se =? k_timeout) && negb (ek ee =? k_timeout) && ms_down m
  then MGo false true
         (MS (ms_async m) (ms_not m) (ms_ign m) (ms_any m) (ms_nmm m) (ms_e m) adv_down)
  (* cpp:189-209 *)
  else if ms_nmm m && Nat.eqb (ms_e m) 1
  then if negb (event_eqb se matches_none)
       then MGo false true
              (MS (ms_async m) (ms_not m)
                  (if kstate_eqb (es se) Down then ms_ign m ++ [ek se] else ms_ign m)
                  (ms_any m) (ms_nmm m) (ms_e m) adv_down)
       else MRet NoMatch None
  else if ms_nmm m && kstate_eqb (es se) Up && mem_key (ek se) (ms_ign m)
  then MGo false true
         (MS (ms_async m) (ms_not m) (ms_ign m) (ms_any m) (ms_nmm m) (ms_e m) adv_down)
  (* cpp:212-214 *)
  else MRet (if at_end then MightMatch else NoMatch) None
  end
  end.

Definition tl_if {A} (b : bool) (l : list A) : list A := if b then tl l else l.

Definition mresult_full : Type := (mresult * list key * option event)%type.

(** The while loop, cpp:71-217.  None = out of fuel. *)
Fixpoint match_loop (fuel : nat) (ex sq : sequence) (m : mstate) : option mresult_full :=
  match ex, sq with
  | [], [] => Some (Matched, ms_any m, None)
  | _, _ =>
    match fuel with
    | O => None
    | S fuel' =>
        let ee := hd matches_none ex in
        let se := hd matches_none sq in
        match match_step ee se (match sq with [] => true | _ => false end) m with
        | MRet r t => Some (r, ms_any m, t)
        | MGo ae as_ m' => match_loop fuel' (tl_if ae ex) (tl_if as_ sq) m'
        end
    end
  end.

(** MatchKeySequence::operator(), cpp:55-218.  The result carries the keys matched
    by Any and the requested timeout ( *input_timeout_event, key none if unset). *)
Definition match_keys (ex sq : sequence) : option mresult_full :=
  match_loop (length ex + length sq) ex sq ms_init.
