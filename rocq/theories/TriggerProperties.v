(** Events which complete a mapping (C113): theorems with their assumptions and an instance
    beside each. *)
From Coq Require Import String Ascii List Arith NArith ZArith Bool Lia.
From Verif Require Import Base Key Match MatchSpec MatchProofs MatchMore MatchLang Stage Text TextSpec ParseSeq Config MultiStage Replay.
From Verif Require Import StageSpec StageSafe StageShape StageRoute StageProperties MultiSpec MultiProofs MultiProperties.
From Verif Require Import StuckSpec StageStuck StringInputSpec StringInputProofs StringInputProperties TriggerSpec TriggerProofs.
Import ListNotations.
Local Open Scope N_scope.

(** The events are held back while the first mapping which does not reject them might
    still match; the one which makes it match puts out its output and nothing else.
    Missing: contexts with modifiers, `?`, timeouts, outputs with `^`, Any or keys which
    are not pressed and released by turns, and a history before. *)
Theorem C113_replaced_partial : forall cs s dev pre e o, steady cs -> at_rest cs s -> typing_keys (pre ++ [e]) -> es e = Down ->
  (forall p q, pre = p ++ q -> p <> [] -> waits cs (s_active s) dev p) ->
  fires cs (s_active s) dev (pre ++ [e]) o -> plain_output o ->
  snd (run cs (fed dev pre) s) = [] /\ snd (run cs (fed dev (pre ++ [e])) s) = shown o.
Proof. intros cs s dev pre e o ST. exact (replaced cs ST s dev pre e o). Qed.
Print Assumptions C113_replaced_partial.

(** A string in the input of the first mapping: nothing is put out while it is typed, and
    then the output of the mapping, whatever mappings follow, when the string is typed as in
    C112_typed_partial. *)
Theorem C113_string_partial : forall cs s dev sh ct m l pre e ci c i rest r o, steady cs -> at_rest cs s ->
  candidates cs (s_active s) dev = (ci, c, i) :: rest -> in_seq i = sided sh ct (string_input false l) ->
  find_output cs (s_active s) ci c (in_out i) = LFound r o -> plain_output o ->
  string_of sh ct m l -> Forall (fun x => is_virtual_key (st_key x) = false) l ->
  typed (modifier_key sh ct m) l (pre ++ [e]) -> es e = Down -> (strokes_of pre < length l)%nat ->
  snd (run cs (fed dev pre) s) = [] /\ snd (run cs (fed dev (pre ++ [e])) s) = shown o.
Proof.
  intros cs s dev sh ct m l pre e ci c i rest r o ST AR CA IS FO PO SO NV TY DE LT.
  pose proof SO as (SI & M & NE & OM). pose proof (modifier_key_in sh ct m SI M) as MI.
  pose proof (modifier_real _ MI) as MR.
  assert (MV : is_virtual_key (modifier_key sh ct m) = false).
  { revert MI. generalize (modifier_key sh ct m). intros k IN. cbn in IN.
    repeat (destruct IN as [<-|IN]; [reflexivity|]). contradiction. }
  assert (RK : Forall (fun e => real_key (ek e)) (pre ++ [e])).
  { apply (typed_all (modifier_key sh ct m) real_key _ _ _ _ _ _ TY MR (Forall_nil _)).
    eapply Forall_impl; [|exact OM]. cbn beta. intros x (A & _). exact A. }
  assert (TK : typing_keys (pre ++ [e])).
  { split.
    - intro k. pose proof (typed_strokes (modifier_key sh ct m) _ _ _ _ _ _ TY) as H.
      assert (LK : Forall (fun x => st_key x <> modifier_key sh ct m) l).
      { eapply Forall_impl; [|exact OM]. cbn beta. intros x (_ & A & _) Q. rewrite Q in A. contradiction. }
      specialize (H LK (NoDup_nil _) (fun q => q) k). unfold holds_key in H. destruct (k =? _); exact H.
    - pose proof (typed_all (modifier_key sh ct m) (fun k => is_virtual_key k = false) _ _ _ _ _ _ TY MV (Forall_nil _) NV) as V.
      apply Forall_forall. intros x Hx. rewrite Forall_forall in RK, V. split; [apply (RK x Hx)|exact (V x Hx)]. }
  assert (TL : timeless (sided sh ct (string_input false l))).
  { assert (A : forall b k q, k <> k_timeout -> timeless q -> timeless (replace_key b k q)).
    { intros b k q K H. apply Forall_forall. intros x Hx. apply in_map_iff in Hx. destruct Hx as (y & <- & Hy).
      apply Forall_forall with (2 := Hy) in H. destruct (ek y =? b); [exact K|exact H]. }
    assert (B : forall b x y q, x <> k_timeout -> y <> k_timeout -> timeless q -> timeless (replace_not_key b x y q)).
    { intros b x y q X Y H. apply Forall_forall. intros z Hz. apply in_flat_map in Hz. destruct Hz as (w & Hw & Hz).
      apply Forall_forall with (2 := Hw) in H.
      destruct (_ && _); [destruct Hz as [<-|[<-|[]]]; [exact X|exact Y]|destruct Hz as [<-|[]]; exact H]. }
    assert (G : timeless (string_input false l)).
    { eapply Forall_impl; [|apply string_keys]. cbn beta. intros x [Q|(y & Q & ->)].
      - destruct Q as [<-|[<-|[<-|[<-|[]]]]]; discriminate.
      - apply Forall_forall with (2 := Q) in OM. apply OM. }
    destruct SI as [SH CT]. unfold sided.
    apply A; [destruct CT as [-> | ->]; discriminate|]. apply B; try discriminate.
    apply A; [destruct SH as [-> | ->]; discriminate|]. apply B; try discriminate. exact G. }
  apply C113_replaced_partial; auto.
  - intros p q E NP. rewrite E, <- app_assoc in TY. rewrite E in LT. rewrite strokes_app in LT.
    assert (RP : Forall (fun e => real_key (ek e)) p) by (rewrite E, <- app_assoc in RK; apply Forall_app in RK; apply RK).
    destruct (C112_typing_partial sh ct m l p (q ++ [e]) SO TY RP ltac:(lia)) as (anys & t & Q).
    assert (T0 : t = None).
    { destruct t as [te|]; [|reflexivity]. exfalso. unfold match_keys in Q. exact (match_no_timeout _ _ _ _ _ _ _ TL Q). }
    subst t. exists (ci, c, i), anys. cbn [snd]. rewrite IS. split; [|exact Q].
    unfold decider. rewrite CA. cbn [find]. unfold rejects. cbn [snd]. rewrite IS, Q. reflexivity.
  - pose proof (C112_typed_partial sh ct m l _ SO TY) as Q.
    exists ci, c, i, [], None, r. rewrite IS. split; [|split; [exact Q|exact FO]].
    unfold decider. rewrite CA. cbn [find]. unfold rejects. cbn [snd]. rewrite IS, Q. reflexivity.
Qed.
Print Assumptions C113_string_partial.

(** The stage starts at rest, and stays so when contexts are set, as long as no mapping has
    the input ContextActive; nothing is put out. *)
Theorem C113_start : forall cs, at_rest cs init_state.
Proof. intro cs. split; try reflexivity. constructor. Qed.
Print Assumptions C113_start.
Definition no_context_active (cs : list context) : Prop :=
  Forall (fun c => Forall (fun i => match in_seq i with x :: _ => ek x <> k_ContextActive | [] => True end) (cx_inputs c)) cs.
Theorem C113_contexts : forall cs s l, wf_config cs -> no_context_active cs -> Forall (fun i => (i < length cs)%nat) l ->
  at_rest cs s -> at_rest cs (fst (run cs [CContexts l] s)) /\ snd (run cs [CContexts l] s) = [].
Proof.
  intros cs s l WF NC IB AR. cbn [run]. destruct (do_call cs (CContexts l) s) as [s1 o1] eqn:DC. cbn [fst snd]. rewrite app_nil_r.
  cbn [do_call] in DC. unfold set_active_client_contexts, update_active_contexts in DC.
  change (s_client (set_client l s)) with l in DC. change (s_seq (set_client l s)) with (s_seq s) in DC.
  rewrite (ar_seq _ _ AR) in DC.
  destruct (eval_active_ok cs WF [] l [] IB) as (act & EA & BA); [constructor|]. rewrite EA in DC.
  assert (UB : forall u, at_rest cs u -> at_rest cs (set_ub u)) by (intros u []; split; assumption).
  assert (ST : forall e p u, at_rest cs u -> at_rest cs (on_context_active_event cs e p u)).
  { intros e p u A. unfold on_context_active_event. destruct (nth_error cs p) as [c|] eqn:NT; [|auto].
    apply nth_error_In in NT. apply Forall_forall with (2 := NT) in NC. cbn beta in NC.
    assert (F : find (fun i => match in_seq i with x :: _ => ek x =? k_ContextActive | [] => false end) (cx_inputs c) = None).
    { clear -NC. induction NC as [|i r H _ IH]; [reflexivity|]. cbn [find].
      destruct (in_seq i) as [|x q]; [exact IH|]. destruct (N.eqb_spec (ek x) k_ContextActive); [contradiction|exact IH]. }
    rewrite F. unfold ub_unless. destruct (forallb _ _); auto. }
  assert (FO : forall e ps u, at_rest cs u -> at_rest cs (fold_left (fun s p => on_context_active_event cs e p s) ps u)).
  { intros e ps. induction ps as [|p ps IH]; intros u A; [exact A|]. cbn [fold_left]. apply IH, ST, A. }
  assert (A0 : at_rest cs (set_active act (set_client l s))) by (destruct AR; split; assumption).
  pose proof (FO (ev0 k_ContextActive Down) (toggled true (s_active (set_client l s)) act) _
    (FO (ev0 k_ContextActive Up) (toggled false (s_active (set_client l s)) act) _ A0)) as A1.
  set (u := fold_left _ _ (fold_left _ _ _)) in *. injection DC as <- <-. split.
  - clearbody u. unfold cancel_inactive_output_on_release. rewrite (ar_onrel _ _ A1). destruct A1. split; try assumption; reflexivity.
  - exact (ar_buf _ _ A1).
Qed.
Print Assumptions C113_contexts.

Definition rest_cfg : list context :=
  load (lines ["D >> Y"; "A B{C} >> X Z"; "A >> Y"])%string.
Definition rest_state : state := fst (run rest_cfg [CContexts [0%nat]] init_state).
Lemma rest_steady : steady rest_cfg.
Proof. split; vm_compute; repeat constructor. Qed.
Lemma rest_at_rest : at_rest rest_cfg rest_state.
Proof. split; vm_compute; repeat constructor. Qed.

Fixpoint strokes_b (d : bool) (t : list kstate) : bool :=
  match t with
  | [] => true
  | Down :: r => negb d && strokes_b true r
  | Up :: r => d && strokes_b false r
  | _ => false
  end.
Lemma strokes_dec t : forall d, strokes_b d t = true -> strokes d t.
Proof.
  induction t as [|s t IH]; intros d H; [exact Logic.I|]. cbn [strokes].
  destruct s, d; try discriminate H; (split; [reflexivity|apply IH; exact H]).
Qed.
Definition alternates_list (l : sequence) : bool :=
  forallb (fun k => strokes_b false (track k l)) (map ek l).
Lemma alternates_dec l : alternates_list l = true -> alternates l.
Proof.
  intros H k. destruct (in_dec N.eq_dec k (map ek l)) as [IN|NI].
  - unfold alternates_list in H. rewrite forallb_forall in H. specialize (H k IN). apply strokes_dec. exact H.
  - assert (E : track k l = []).
    { unfold track. replace (List.filter (has_key k) l) with (@nil event); [reflexivity|]. clear H.
      induction l as [|x l IH]; [reflexivity|]. cbn [List.filter]. unfold has_key at 1. destruct (N.eqb_spec (ek x) k) as [Q|_].
      - exfalso. apply NI. left. exact Q.
      - apply IH. intro Q. apply NI. right. exact Q. }
    rewrite E. exact Logic.I.
Qed.

Example C113_case :
  let pre := ev_at "+A -A +B" in let e := ev0 (keyn "C") Down in
  typing_keys (pre ++ [e]) /\
  (forall p q, pre = p ++ q -> p <> [] -> waits rest_cfg (s_active rest_state) 0 p) /\
  fires rest_cfg (s_active rest_state) 0 (pre ++ [e]) (ev_at "+X -X +Z -Z") /\ plain_output (ev_at "+X -X +Z -Z") /\
  fmt (snd (run rest_cfg (fed 0 (pre ++ [e])) rest_state)) = "+X -X +Z -Z"%string.
Proof.
  cbv zeta. split; [|split; [|split; [|split]]].
  - split; [apply alternates_dec; vm_compute; reflexivity|].
    vm_compute. repeat (constructor; [split; [discriminate|reflexivity]|]). constructor.
  - intros p q E NP.
    assert (Q : p = ev_at "+A" \/ p = ev_at "+A -A" \/ p = ev_at "+A -A +B").
    { assert (L : p = firstn (length p) (ev_at "+A -A +B")) by (rewrite E, firstn_app, Nat.sub_diag, firstn_all, app_nil_r; reflexivity).
      destruct (length p) as [|[|[|n]]] eqn:N0; rewrite L.
      - destruct p; [contradiction|discriminate N0].
      - left. vm_compute. reflexivity.
      - right; left. vm_compute. reflexivity.
      - right; right. vm_compute. destruct n; reflexivity. }
    destruct Q as [-> |[-> | ->]]; eexists; eexists; split; vm_compute; reflexivity.
  - eexists; eexists; eexists; eexists; eexists; eexists. split; [vm_compute; reflexivity|]. split; vm_compute; reflexivity.
  - split; [apply alternates_dec; vm_compute; reflexivity|]. vm_compute. repeat (constructor; [split; discriminate|]). constructor.
  - vm_compute. reflexivity.
Qed.

Definition string_cfg : list context := load (lines ["""aBc"" >> ""yZ"""; "A >> Y"])%string.
Definition string_state : state := fst (run string_cfg [CContexts [0%nat]] init_state).
Example C113_string_case :
  let pre := ev_at "+A -A +ShiftLeft +B -ShiftLeft" in let e := ev0 (keyn "C") Down in
  steady string_cfg /\ at_rest string_cfg string_state /\
  (exists ci c i rest r o, candidates string_cfg (s_active string_state) 0 = (ci, c, i) :: rest /\
     in_seq i = sided ShiftLeft ControlLeft (string_input false aBc) /\
     find_output string_cfg (s_active string_state) ci c (in_out i) = LFound r o /\ plain_output o) /\
  string_of ShiftLeft ControlLeft 1 aBc /\ Forall (fun x => is_virtual_key (st_key x) = false) aBc /\
  typed (modifier_key ShiftLeft ControlLeft 1) aBc (pre ++ [e]) /\ (strokes_of pre < length aBc)%nat /\
  fmt (snd (run string_cfg (fed 0 (pre ++ [e])) string_state)) = "+Y -Y +ShiftLeft +Z -Z -ShiftLeft"%string.
Proof.
  cbv zeta. split; [split; vm_compute; repeat constructor|]. split; [split; vm_compute; repeat constructor|]. split.
  { do 6 eexists. split; [vm_compute; reflexivity|]. split; [vm_compute; reflexivity|]. split; [vm_compute; reflexivity|].
    split; [apply alternates_dec; vm_compute; reflexivity|]. vm_compute. repeat (constructor; [split; discriminate|]). constructor. }
  split; [exact aBc_string|]. split; [repeat constructor|]. split; [|split; [vm_compute; repeat constructor|vm_compute; reflexivity]].
  unfold typed, aBc. vm_compute (_ ++ _).
  apply (ty_key _ false false false [] (Stroke (keyn "A") 0 0)); [reflexivity|tauto|].
  apply (ty_up _ false false false [] [] (keyn "A")). cbn [app].
  apply ty_press; [reflexivity|auto|].
  apply (ty_key _ true true true [] (Stroke (keyn "B") 1 0)); [reflexivity|tauto|].
  apply ty_release; [reflexivity|].
  apply (ty_key _ true true false [keyn "B"] (Stroke (keyn "C") 0 0)); [reflexivity|intros [Q|[]]; discriminate Q|].
  apply ty_done.
Qed.
Example C113_contexts_case : wf_config rest_cfg /\ no_context_active rest_cfg /\ Forall (fun i => (i < length rest_cfg)%nat) [0%nat].
Proof.
  split; [apply wf_config_dec; vm_compute; reflexivity|].
  split; [vm_compute; repeat (constructor; try discriminate)|]. vm_compute. repeat constructor.
Qed.
