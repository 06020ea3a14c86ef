(** Strings in inputs (C112): theorems with their assumptions and an instance beside each. *)
From Coq Require Import String Ascii List Arith NArith ZArith Bool Lia.
From Verif Require Import Base Key Match MatchSpec MatchProofs MatchMore MatchLang Stage Text TextSpec ParseSeq Config MultiStage Replay.
From Verif Require Import StageSpec StageSafe StageShape StageProperties MultiSpec MultiProofs MultiProperties.
From Verif Require Import ExprSpec ExprProofs ExprProperties StringInputSpec StringInputProofs.
Import ListNotations.
Local Open Scope N_scope.

(** The strokes in the input [ex] with the modifier [m] and the keys [sh] and [ct] *)
Definition string_of (sh ct : key) (m : N) (l : list stroke) : Prop :=
  sides sh ct /\ one_bit m /\ l <> [] /\ one_modifier m l.

(** A string in an input matches once it is typed.  Missing: strings which need two
    modifiers, and pressing the modifier for the first time while a key is held. *)
Theorem C112_typed_partial : forall sh ct m l sq, string_of sh ct m l ->
  typed (modifier_key sh ct m) l sq ->
  match_keys (sided sh ct (string_input false l)) sq = Some (Matched, [], None).
Proof.
  intros sh ct m l sq (SI & M & NE & OM) TY.
  destruct (typed_accepted sh ct m l sq SI M NE OM TY 0%nat false) as [f H].
  destruct (match_keys_total (sided sh ct (string_input false l)) sq) as (n & r & anys & t & _ & _ & Q).
  { pose proof (modifier_key_in sh ct m SI M) as MI. pose proof (modifier_real _ MI) as MR.
    assert (G : forall u rd h p k s, types (modifier_key sh ct m) u rd h p k s -> Forall (fun x => real_key (st_key x)) k ->
              Forall real_key p -> no_none s).
    { intros u rd h p k s H0. induction H0; intros F1 F2; constructor; cbn [ek ev0];
        try (apply IHtypes; auto; fail); try apply MR.
      - apply Forall_app in F2. destruct F2 as [_ F2]. apply Forall_inv in F2. apply F2.
      - apply IHtypes; [exact F1|]. apply Forall_app in F2. destruct F2 as [F2 F3]. apply Forall_app. split; [exact F2|].
        inversion F3; assumption.
      - apply Forall_inv in F1. apply F1.
      - apply IHtypes; [inversion F1; assumption|]. constructor; [apply Forall_inv in F1; exact F1|exact F2].
      - constructor; [apply MR|]. apply IHtypes; assumption. }
    eapply G; [exact TY| |constructor]. eapply Forall_impl; [|exact OM]. cbn beta. intros x (A & _). exact A. }
  rewrite Q. unfold match_keys in Q. change ms_init with (st [] [] 0%nat false) in Q.
  set (F := max f (length (sided sh ct (string_input false l)) + length sq)).
  pose proof (match_loop_run _ _ _ _ _ H F) as H1. pose proof (match_loop_run _ _ _ _ _ Q F) as Q1.
  rewrite H1 in Q1 by lia. symmetry. apply Q1. lia.
Qed.
Print Assumptions C112_typed_partial.

(** The input is what stands in the quotes of the configuration. *)
Theorem C112_parsed : forall gk ty command s t c, written gk (EString s EEnd) t -> comment c ->
  ty s <> [] -> letters (ty s) -> Forall (fun x => st_key x <> k_ContextActive) (ty s) ->
  parse_sequence true gk ty (Some command) (t ++ c) = POk (string_input false (ty s), []).
Proof.
  intros gk ty command s t c W C NE LL CA.
  pose proof (input_parsed gk ty command false (EString s EEnd) [] t c (Forall_nil _) W C) as H.
  cbn [meaning start typing app fine commands_of front_text] in H. apply H; auto.
  - destruct (ty s) as [|x l]; [contradiction|]. exists (ev0 (st_key x) Down).
    split; [apply string_presses|split; [reflexivity|]]. apply Forall_inv in LL. apply LL.
  - eapply Forall_impl; [|apply string_keys]. cbn beta. intros e [Q|(x & Q & E)].
    + destruct Q as [<-|[<-|[<-|[<-|[]]]]]; discriminate.
    + rewrite E. apply Forall_forall with (2 := Q) in CA. exact CA.
  - intro Q. discriminate Q.
Qed.
Print Assumptions C112_parsed.

(** It does not match before as many keys were pressed as the string has; this holds for
    every string and everything which may be pressed. *)
Theorem C112_not_early : forall sh ct l sq, sides sh ct -> letters l -> Forall (fun e => real_key (ek e)) sq ->
  (strokes_of sq < length l)%nat ->
  exists r anys t, match_keys (sided sh ct (string_input false l)) sq = Some (r, anys, t) /\ r <> Matched.
Proof.
  intros sh ct l sq SI LL RS LT.
  destruct (match_keys_total (sided sh ct (string_input false l)) sq) as (n & r & anys & t & _ & _ & Q).
  { eapply Forall_impl; [|exact RS]. cbn beta. intros e [A _]. exact A. }
  exists r, anys, t. split; [exact Q|]. intro R. subst r. unfold match_keys in Q.
  exact (string_not_early sh ct l sq _ anys t SI LL RS LT Q).
Qed.
Print Assumptions C112_not_early.

(** While it is being typed the keys are held back. *)
Theorem C112_typing_partial : forall sh ct m l sq more, string_of sh ct m l ->
  typed (modifier_key sh ct m) l (sq ++ more) -> Forall (fun e => real_key (ek e)) sq ->
  (strokes_of sq < length l)%nat ->
  exists anys t, match_keys (sided sh ct (string_input false l)) sq = Some (MightMatch, anys, t).
Proof.
  intros sh ct m l sq more SO TY RS LT. pose proof (C112_typed_partial sh ct m l _ SO TY) as F.
  destruct SO as (SI & M & NE & OM).
  assert (LL : letters l).
  { eapply Forall_impl; [|exact OM]. cbn beta. intros x (A & B & D & E & _). split; [split; assumption|auto]. }
  destruct (C112_not_early sh ct l sq SI LL RS LT) as (r & anys & t & Q & NM).
  pose proof (match_prefix_not_rejected _ sq more _ _ _ r anys t (sided_states sh ct _ (string_states l)) F ltac:(discriminate) Q) as P.
  exists anys, t. rewrite Q. destruct r; congruence.
Qed.
Print Assumptions C112_typing_partial.

(** It does not match while another modifier is held, if it begins without one. *)
Theorem C112_other_modifier : forall sh ct m a x l sq, string_of sh ct m (x :: l) ->
  needs x = false -> In a modifier_keys -> a <> modifier_key sh ct m -> no_none sq ->
  (exists e, In e sq /\ ek e = a /\ is_press (es e) = true) ->
  exists anys t, match_keys (sided sh ct (string_input false (x :: l))) sq = Some (NoMatch, anys, t).
Proof.
  intros sh ct m a x l sq (SI & M & _ & OM) NX IA NA NN PR.
  destruct (match_keys_total (sided sh ct (string_input false (x :: l))) sq NN) as (n & r & anys & t & _ & _ & Q).
  exists anys, t. rewrite Q. unfold match_keys in Q.
  rewrite (string_other_modifier sh ct m a x l _ sq r anys t SI M OM NX IA NA NN Q PR). reflexivity.
Qed.
Print Assumptions C112_other_modifier.

Definition ev_at (t : string) : sequence := match events t with Some l => l | None => [] end.
(** The input of the first mapping of a configuration, for the first choice of the sides *)
Definition first_input (t : string) : sequence :=
  match load_multi t with (c :: _) :: _ => match cx_inputs c with i :: _ => in_seq i | [] => [] end | _ => [] end.
Definition aBc : list stroke := [Stroke (keyn "A") 0 0; Stroke (keyn "B") 1 0; Stroke (keyn "C") 0 0].

Lemma aBc_string : string_of ShiftLeft ControlLeft 1 aBc.
Proof.
  repeat split; auto; try discriminate.
  - left. reflexivity.
  - unfold one_modifier, aBc.
    repeat (apply Forall_cons; [vm_compute; repeat split; try discriminate; try tauto; intro Q; repeat (destruct Q as [Q|Q]; [discriminate Q|]); exact Q|]).
    constructor.
Qed.
Lemma aBc_typed : typed (modifier_key ShiftLeft ControlLeft 1) aBc (ev_at "+A -A +ShiftLeft +B -ShiftLeft +C -B").
Proof.
  unfold typed, aBc. vm_compute (ev_at _).
  apply (ty_key _ false false false [] (Stroke (keyn "A") 0 0)); [reflexivity|tauto|].
  apply (ty_up _ false false false [] [] (keyn "A")). cbn [app].
  apply ty_press; [reflexivity|auto|].
  apply (ty_key _ true true true [] (Stroke (keyn "B") 1 0)); [reflexivity|tauto|].
  apply ty_release; [reflexivity|].
  apply (ty_key _ true true false [keyn "B"] (Stroke (keyn "C") 0 0)); [reflexivity|intros [Q|[]]; discriminate Q|].
  apply (ty_up _ true false false [keyn "C"] [] (keyn "B")). apply ty_done.
Qed.
Example C112_case :
  first_input (lines ["""aBc"" >> X"])%string = sided ShiftLeft ControlLeft (string_input false aBc) /\
  string_of ShiftLeft ControlLeft 1 aBc /\
  typed (modifier_key ShiftLeft ControlLeft 1) aBc (ev_at "+A -A +ShiftLeft +B -ShiftLeft +C -B") /\
  let cfg := load_multi (lines ["""aBc"" >> X"])%string in
  fmt (snd (mrun (multi_calls cfg "+A -A +ShiftLeft +B -ShiftLeft +C -C") (new_multi_stage cfg))) = "+X -X"%string.
Proof.
  split; [vm_compute; reflexivity|]. split; [exact aBc_string|]. split; [exact aBc_typed|]. vm_compute. reflexivity.
Qed.

(** Missing: a string of which the letters are typed with overlap.  Shift is pressed before
    the first key is released, and the string is not recognised. *)
Theorem C112_overlap_refuted : exists sh ct m l pre k post, string_of sh ct m l /\
  let mk := modifier_key sh ct m in
  typed mk l (pre ++ [ev0 k Up; ev0 mk Down] ++ post) /\
  match_keys (sided sh ct (string_input false l)) (pre ++ [ev0 mk Down; ev0 k Up] ++ post) = Some (NoMatch, [], None).
Proof.
  exists ShiftLeft, ControlLeft, 1, aBc, (ev_at "+A"), (keyn "A"), (ev_at "+B -ShiftLeft +C -B").
  split; [exact aBc_string|]. split; [exact aBc_typed|]. vm_compute. reflexivity.
Qed.
Print Assumptions C112_overlap_refuted.
(** Missing: a string which needs two modifiers is never recognised as it is typed. *)
Definition two_modifiers : list stroke :=
  [Stroke (keyn "A") 0 0; Stroke (keyn "B") 1 0; Stroke (keyn "C") 4 0].
Theorem C112_modifiers_refuted : exists sh ct l, sides sh ct /\ letters l /\ l <> [] /\
  forall n, (match match_keys (sided sh ct (string_input false l)) (firstn n (plainly sh ct l)) with
             | Some (Matched, _, _) => True | _ => False end) -> False.
Proof.
  exists ShiftLeft, ControlLeft, two_modifiers. split; [split; left; reflexivity|]. split; [|split; [discriminate|]].
  - unfold letters, two_modifiers.
    repeat (apply Forall_cons; [vm_compute; repeat split; try discriminate; intro Q; repeat (destruct Q as [Q|Q]; [discriminate Q|]); exact Q|]).
    constructor.
  - intro n. set (p := plainly _ _ _). assert (L : length p = 10%nat) by reflexivity.
    assert (Q : firstn n p = firstn (min n 10) p).
    { destruct (Nat.le_gt_cases n 10) as [A|A]; [rewrite Nat.min_l by exact A; reflexivity|].
      rewrite Nat.min_r by lia. rewrite !firstn_all2 by lia. reflexivity. }
    rewrite Q. assert (A : (min n 10 <= 10)%nat) by lia. revert A. generalize (min n 10) as j. intros j A.
    do 11 (destruct j as [|j]; [vm_compute; tauto|]). lia.
Qed.
Print Assumptions C112_modifiers_refuted.
(** One modifier is enough for the same way of typing. *)
Example C112_plainly_case :
  exists n, match_keys (sided ShiftLeft ControlLeft (string_input false aBc)) (firstn n (plainly ShiftLeft ControlLeft aBc))
            = Some (Matched, [], None).
Proof. exists 7%nat. vm_compute. reflexivity. Qed.
Example C112_not_early_case :
  letters two_modifiers /\ strokes_of (ev_at "+A -A +ShiftLeft +B") = 2%nat /\ length two_modifiers = 3%nat.
Proof.
  split; [|split; reflexivity]. unfold letters, two_modifiers.
  repeat (apply Forall_cons; [vm_compute; repeat split; try discriminate; intro Q; repeat (destruct Q as [Q|Q]; [discriminate Q|]); exact Q|]).
  constructor.
Qed.
