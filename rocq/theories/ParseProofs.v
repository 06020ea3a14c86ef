(** The loop of ParseKeySequence: every round consumes characters, and what a round
    does to the parser state, case by case. *)
From Coq Require Import String Ascii List NArith ZArith Bool Lia.
From Verif Require Import Base Key Text TextSpec TextProofs Match ParseSeq.
Import ListNotations.
Open Scope N_scope.

Lemma try_read_timeout_later : forall it v r, try_read_timeout it = TYes v r -> later r it.
Proof.
  intros it v r H. unfold try_read_timeout in H.
  destruct (try_read_number it) as [[[n ub] q]|] eqn:E; [|discriminate].
  destruct ub; [discriminate|]. destruct (skip (T "ms") q) as [s|] eqn:K; [|discriminate].
  injection H as _ <-. eapply later_trans2; [exact (skip_suffix _ _ _ K)|].
  exact (try_read_number_later _ _ _ _ E).
Qed.
Lemma try_read_timeout_huge : forall it, try_read_timeout it = TUB -> huge_number it.
Proof.
  intros it H. unfold try_read_timeout in H.
  destruct (try_read_number it) as [[[n ub] q]|] eqn:E; [|discriminate].
  destruct ub; [exact (try_read_number_huge _ _ _ E)|].
  now destruct (skip (T "ms") q).
Qed.

Lemma read_command_later : forall it l t q, read_command l it = Some (t, q) -> later q it.
Proof.
  induction it as [|c r IH]; intros l t q H; [discriminate|]. cbn [read_command] in H.
  destruct (if code c =? 40 then S l else if code c =? 41 then Nat.pred l else l) as [|l'].
  - injection H as _ <-. apply later_cons, suffix_refl.
  - destruct (read_command (S l') r) as [[t' q']|] eqn:E; [|discriminate].
    injection H as _ <-. apply later_cons, later_suffix. exact (IH _ _ _ E).
Qed.

Lemma read_key_later : forall gk it k r, read_key gk it = POk (k, r) ->
  later r it /\ k <> 0 /\ exists name, name <> [] /\ gk name = k.
Proof.
  intros gk it k r H. unfold read_key in H. destruct (read_ident it) as [name q] eqn:E.
  destruct name as [|c name]; [discriminate|].
  destruct (gk (c :: name)) as [|x] eqn:G; [discriminate|]. injection H as <- <-.
  repeat split; [exact (read_ident_later _ _ _ _ E)|discriminate|].
  exists (c :: name). split; [discriminate|exact G].
Qed.
Lemma read_key_total : forall gk it, read_key gk it <> PUB /\ read_key gk it <> PFuel.
Proof.
  intros gk it. unfold read_key. destruct (read_ident it) as [[|c n] q]; [easy|].
  now destruct (gk (c :: n)).
Qed.

(** What one round does; [it] is the text it starts at. *)
Section Moves.
Variable inp : bool.
Variable gk : text -> key.
Variable ty : text -> list stroke.
Variable ck : option (nat -> key).

(** Is [k] a key some name stands for? *)
Definition named (k : key) : Prop := k <> 0 /\ exists name, name <> [] /\ gk name = k.

Inductive move (it : text) (p : pstate) : pstate -> Prop :=
| m_timeout : forall v n p', p_together p = false -> (n = false -> p_nmm p = false) ->
    (n = true -> In "!"%char it) ->
    add_timeout_event inp v n (Nat.ltb 0 (p_modified p)) p = POk p' -> move it p p'
| m_not : forall k p', named k -> p_together p = false -> In "!"%char it ->
    parse_not_key inp k p = POk p' -> move it p p'
| m_string : forall s, p_together p = false ->
    move it p
      (let p1 := flush_key_buffer inp true p in
       let sq := ty s in
       let g := Nat.ltb 0 (p_modified p1) in
       let p2 := p_set_seq (p_seq p1 ++ (if inp then string_input g sq else string_output g sq)) p1 in
       p_set_hasmod (p_hasmod p2 || strokes_have_modifier sq) p2)
| m_command : forall t, inp = false -> p_together p = false -> p_modified p = 0%nat ->
    move it p
      (let p1 := flush_key_buffer inp true p in
       match ck with
       | None => p1
       | Some f => p_set_cmds (p_cmds p1 ++ [t])
                     (add_event (ev0 (f (length (p_cmds p1))) Down) p1)
       end)
| m_onrel : inp = false -> p_together p = false -> p_modified p = 0%nat -> p_onrel p = false ->
    In "^"%char it ->
    move it p (p_set_onrel true (add_event (ev0 k_none OutputOnRelease) (flush_key_buffer inp true p)))
| m_nmm : inp = true -> p_seq p = [] -> p_buffer p = [] -> p_together p = false ->
    In "?"%char it ->
    move it p (p_set_nmm true (add_event (ev0 k_none NoMightMatch) p))
| m_open : p_together p = false ->
    move it p (p_set_together true (flush_key_buffer inp true p))
| m_close : p_together p = true ->
    move it p (p_set_together false
      (if inp then p_set_seq (p_seq p ++ map (fun k => ev0 k DownAsync) (p_buffer p)) p else p))
| m_group : p_together p = false ->
    p_pressed (flush_key_buffer inp false (p_set_before (length (p_pressed p) :: p_before p) p)) <> [] ->
    move it p
      (let p1 := flush_key_buffer inp false (p_set_before (length (p_pressed p) :: p_before p) p) in
       p_set_hasmod true (p_set_modified (S (p_modified p1)) p1))
| m_end : forall m b bs, p_modified p = S m -> p_before p = b :: bs ->
    move it p
      (let p1 := release_pressed_keys inp b (flush_key_buffer inp true p) in
       let p2 := p_set_modified m (p_set_before bs p1) in
       if inp then sync_after_not_timeout p2 else p2)
| m_key : forall k, named k ->
    move it p (let p1 := if p_together p then p else flush_key_buffer inp true p in
               p_set_buffer (p_buffer p1 ++ [k]) p1).

Local Notation step := (parse_step inp gk ty ck).

Lemma or_false2 : forall a b : bool, a || b = false -> a = false /\ b = false.
Proof. intros [] []; easy. Qed.

Definition outcome (it : text) (p : pstate) (r : pres pstep) : Prop :=
  match r with
  | POk (Continue it' p') => later it' it /\ move it p p'
  | POk (Break p') => p' = flush_key_buffer inp true p
  | PErr => True
  | PUB => huge_number it
  | PFuel => False
  end.

Lemma add_timeout_total : forall v n c p,
  match add_timeout_event inp v n c p with PUB => False | PFuel => False | _ => True end.
Proof.
  intros v n c p. unfold add_timeout_event.
  destruct (inp && negb (has_key_down (p_seq (flush_key_buffer inp true p)))); [exact I|].
  destruct (negb inp && n); [exact I|].
  destruct (back (p_seq (flush_key_buffer inp true p))) as [e|]; [|exact I].
  now destruct (_ && _).
Qed.
Lemma not_key_total : forall k p,
  match parse_not_key inp k p with PUB => False | PFuel => False | _ => True end.
Proof.
  intros k p. unfold parse_not_key. destruct (_ && _); [exact I|].
  destruct (remove_from_pressed k (flush_key_buffer inp inp p)) as [q r].
  destruct (inp && ends_with_async_up _ _); [exact I|]. now destruct (inp && is_pressed _ _).
Qed.

Lemma lift_outcome : forall it p it' r,
  later it' it ->
  match r with PUB => False | PFuel => False | _ => True end ->
  (forall p', r = POk p' -> move it p p') ->
  outcome it p (lift it' r).
Proof.
  intros it p it' r L G M. destruct r as [p'| | |]; cbn [lift outcome]; try easy.
  split; [exact L|now apply M].
Qed.

Lemma otherwise_outcome : forall it p,
  outcome it p
    (match try_read_timeout it with
    | TUB => PUB
    | TYes v r =>
        if p_together p then PErr
        else if p_nmm p then PErr
        else lift r (add_timeout_event inp v false (Nat.ltb 0 (p_modified p)) p)
    | TNo =>
        match it with
        | [] => POk (Break (flush_key_buffer inp true p))
        | _ =>
            let p := if p_together p then p else flush_key_buffer inp true p in
            match read_key gk it with
            | POk (k, r) => POk (Continue r (p_set_buffer (p_buffer p ++ [k]) p))
            | PErr => PErr | PUB => PUB | PFuel => PFuel
            end
        end
    end).
Proof.
  intros it p. destruct (try_read_timeout it) as [|v r|] eqn:E.
  - destruct it as [|c it]; [reflexivity|].
    cbn zeta.
    destruct (read_key gk (c :: it)) as [[k r]| | |] eqn:K; try exact I.
    + destruct (read_key_later _ _ _ _ K) as [L [Z [n [Nn G]]]].
      split; [exact L|]. apply m_key. split; [exact Z|now exists n].
    + destruct (read_key_total gk (c :: it)); contradiction.
    + destruct (read_key_total gk (c :: it)); contradiction.
  - destruct (p_together p) eqn:Tg; [exact I|]. destruct (p_nmm p) eqn:Nm; [exact I|].
    apply lift_outcome; [exact (try_read_timeout_later _ _ _ E)|apply add_timeout_total|].
    intros p' H. eapply m_timeout with (n := false); [exact Tg|easy|discriminate|exact H].
  - exact (try_read_timeout_huge _ E).
Qed.

Lemma step_outcome : forall it p, outcome it p (step it p).
Proof.
  intros it p. destruct it as [|c r].
  - exact (otherwise_outcome [] p).
  - unfold parse_step.
    destruct (Ascii.eqb_spec c "!"%char) as [E|_].
    { subst c. assert (In "!"%char ("!"%char :: r)) as Ib by now left.
      destruct (try_read_timeout r) as [|v q|] eqn:E.
      - destruct (p_together p) eqn:Tg; [exact I|].
        destruct (read_key gk r) as [[k q]| | |] eqn:K; try exact I.
        + destruct (read_key_later _ _ _ _ K) as [L [Z [n [Nn G]]]].
          apply lift_outcome; [apply later_cons, later_suffix, L|apply not_key_total|].
          intros p' H. eapply m_not; [split; [exact Z|now exists n]|exact Tg|exact Ib|exact H].
        + destruct (read_key_total gk r); contradiction.
        + destruct (read_key_total gk r); contradiction.
      - destruct (p_together p) eqn:Tg; [exact I|].
        apply lift_outcome;
          [apply later_cons, later_suffix; exact (try_read_timeout_later _ _ _ E)
          |apply add_timeout_total|].
        intros p' H. eapply m_timeout with (n := true); [exact Tg|discriminate|easy|exact H].
      - cbn. eapply huge_suffix; [|exact (try_read_timeout_huge _ E)].
        apply suffix_cons, suffix_refl. }
    destruct (is_quote c).
    { unfold parse_string. destruct (p_together p) eqn:Tg; [exact I|].
      destruct (skip_until [c] r) as [q|] eqn:E; [|exact I].
      split; [apply later_cons; exact (skip_until_suffix _ _ _ E)|].
      exact (m_string (c :: r) p (removelast (before r q)) Tg). }
    destruct (Ascii.eqb c "$"%char).
    { unfold parse_command. destruct inp eqn:Ei; [exact I|].
      destruct (p_together p) eqn:Tg; [exact I|]. cbn [orb].
      destruct (Nat.ltb_spec 0 (p_modified p)) as [Lt|Ge]; [exact I|].
      destruct (skip (T "(") r) as [r1|] eqn:E; [|exact I].
      destruct (read_command 1 r1) as [[t q]|] eqn:R; [|exact I].
      assert (later q (c :: r)) as L.
      { apply later_cons. eapply suffix_trans; [|exact (skip_suffix _ _ _ E)].
        apply later_suffix. exact (read_command_later _ _ _ _ R). }
      pose proof (m_command (c :: r) p t Ei Tg ltac:(lia)) as M. rewrite Ei in M.
      destruct ck as [f|]; (split; [exact L|]); rewrite ?Ei; exact M. }
    destruct (Ascii.eqb_spec c "^"%char) as [E|_].
    { destruct (_ || _) eqn:G; [exact I|].
      apply or_false2 in G as [G G4]. apply or_false2 in G as [G G3]. apply or_false2 in G as [G1 G2].
      split; [apply later_cons, suffix_refl|]. apply Nat.ltb_ge in G4.
      apply m_onrel; [exact G1|exact G3|lia|exact G2|now left]. }
    destruct (Ascii.eqb_spec c "?"%char) as [E|_].
    { destruct (_ || _) eqn:G; [exact I|].
      apply or_false2 in G as [G G5]. apply or_false2 in G as [G G4].
      apply or_false2 in G as [G G3]. apply or_false2 in G as [G1 G2].
      split; [apply later_cons, suffix_refl|].
      apply m_nmm; [now destruct inp|now destruct (p_seq p)|now destruct (p_buffer p)|exact G5
                    |now left]. }
    destruct (Ascii.eqb c "("%char).
    { destruct (p_together p) eqn:Tg; [exact I|].
      split; [apply later_cons, suffix_refl|]. now apply m_open. }
    destruct (Ascii.eqb c ")"%char).
    { destruct (p_together p) eqn:Tg; [|exact I].
      split; [apply later_cons, suffix_refl|]. now apply m_close. }
    destruct (Ascii.eqb c "{"%char).
    { destruct (p_together p) eqn:Tg; [exact I|]. cbn zeta.
      destruct (p_pressed _) eqn:Pr; [exact I|].
      split; [apply later_cons, suffix_refl|]. apply m_group; [exact Tg|]. now rewrite Pr. }
    destruct (Ascii.eqb c "}"%char).
    { destruct (p_modified p) as [|m] eqn:Em; [exact I|].
      destruct (p_before p) as [|b bs] eqn:Eb; [exact I|].
      split; [apply later_cons, suffix_refl|]. exact (m_end (c :: r) p m b bs Em Eb). }
    destruct (is_comment_char c); [reflexivity|].
    exact (otherwise_outcome (c :: r) p).
Qed.

(** * The loop *)

Local Notation loop := (parse_loop inp gk ty ck).

Lemma loop_total : forall fuel it p, (length it < fuel)%nat ->
  match loop fuel it p with PFuel => False | PUB => huge_number it | _ => True end.
Proof.
  induction fuel as [|f IH]; intros it p L; [lia|]. cbn [parse_loop].
  pose proof (step_outcome (skip_space it) p) as O.
  pose proof (skip_space_suffix it) as Sp.
  destruct (step (skip_space it) p) as [[it' p'|p']| | |]; cbn [outcome] in O; try exact I.
  - destruct O as [L' _]. pose proof (later_trans _ _ _ L' Sp) as L2.
    pose proof (later_length _ _ L2) as Ln.
    specialize (IH it' p' ltac:(lia)). destruct (loop f it' p'); try exact IH.
    exact (huge_suffix _ _ (later_suffix _ _ L2) IH).
  - exact (huge_suffix _ _ Sp O).
  - exact O.
Qed.

(** An invariant of the rounds holds at the end. *)
Lemma loop_invariant : forall (P : pstate -> Prop) (t : text),
  (forall it p p', suffix it t -> move it p p' -> P p -> P p') ->
  forall fuel it p q, suffix it t -> P p -> loop fuel it p = POk q ->
  exists p', P p' /\ q = flush_key_buffer inp true p'.
Proof.
  intros P t M. induction fuel as [|f IH]; intros it p q Su Pp H; [discriminate|].
  cbn [parse_loop] in H. pose proof (step_outcome (skip_space it) p) as O.
  pose proof (suffix_trans _ _ _ (skip_space_suffix it) Su) as Sp.
  destruct (step (skip_space it) p) as [[it' p'|p']| | |]; cbn [outcome] in O; try discriminate.
  - destruct O as [L' Mv].
    apply (IH it' p' q); [|exact (M _ _ _ Sp Mv Pp)|exact H].
    exact (suffix_trans _ _ _ (later_suffix _ _ L') Sp).
  - injection H as <-. exists p. now split.
Qed.

Lemma check_total : forall l,
  match check_context_active inp l with PUB => False | PFuel => False | _ => True end.
Proof.
  intros l. unfold check_context_active. destruct (existsb _ l); [|exact I].
  destruct (negb inp); [exact I|]. now destruct (negb _).
Qed.
Lemma end_total : forall p,
  match parse_end inp p with PUB => False | PFuel => False | _ => True end.
Proof.
  intros p. unfold parse_end. destruct (p_together p); [exact I|].
  destruct (Nat.ltb 0 (p_modified p)); [exact I|]. cbn zeta.
  destruct (inp && _); [exact I|]. destruct (_ && has_virtual_key _); [exact I|].
  apply check_total.
Qed.

Theorem sequence_total : forall t,
  match parse_sequence inp gk ty ck t with
  | PFuel => False | PUB => huge_number t | _ => True end.
Proof.
  intros t. unfold parse_sequence. pose proof (loop_total (S (length t)) t p_init ltac:(lia)) as L.
  destruct (loop (S (length t)) t p_init) as [p| | |]; try exact L.
  pose proof (end_total p) as E. now destruct (parse_end inp p).
Qed.

Lemma sequence_invariant : forall (P : pstate -> Prop) t l cmds,
  P p_init -> (forall it p p', suffix it t -> move it p p' -> P p -> P p') ->
  parse_sequence inp gk ty ck t = POk (l, cmds) ->
  exists p, P p /\ parse_end inp (flush_key_buffer inp true p) = POk l
            /\ cmds = p_cmds (flush_key_buffer inp true p).
Proof.
  intros P t l cmds Pi M H. unfold parse_sequence in H.
  destruct (loop (S (length t)) t p_init) as [q| | |] eqn:E; try discriminate.
  destruct (loop_invariant P t M _ _ _ _ (suffix_refl t) Pi E) as [p [Pp ->]].
  destruct (parse_end inp _) as [l'| | |] eqn:F; try discriminate.
  injection H as -> <-. now exists p.
Qed.

End Moves.
