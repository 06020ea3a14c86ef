(** A typed text on its way through the server and the devices (C58). *)
From Coq Require Import String Ascii List Arith NArith ZArith Bool Lia.
From Verif Require Import Base Key Text ParseSeq MultiStage Server ServerSpec ServerProofs Client Device DeviceSpec DeviceProofs
  Typer TyperSpec TyperProofs.
Import ListNotations.
Local Open Scope N_scope.

(** Events which are just sent *)
Definition plain_out (e : event) : Prop :=
  is_mouse_wheel (ek e) = false /\ is_action_key (ek e) = false /\ is_virtual_key (ek e) = false /\ ek e <> k_timeout.

Lemma sent_plain e : sent_event e -> plain_out e.
Proof.
  intros [([H0 H] & _ & W) _]. unfold plain_out, is_action_key, is_virtual_key, in_range, first_action, first_virtual, k_timeout.
  split; [exact W|]. repeat split.
  - destruct (N.leb_spec 0xF200 (ek e)); [lia|reflexivity].
  - destruct (N.leb_spec 0xF100 (ek e)); [lia|reflexivity].
  - lia.
Qed.

Section Server.
Variable clock : nat -> Z.
Variable send_ok : nat -> bool.
Hypothesis sends_ok : forall n, send_ok n = true.

Lemma pushed l : forall s, delivered (sv_trace (send_key_sequence l s)) = delivered (sv_trace s) /\
  sv_buf (send_key_sequence l s) = sv_buf s ++ l /\ sv_sending (send_key_sequence l s) = sv_sending s /\
  sv_stage (send_key_sequence l s) = sv_stage s.
Proof.
  unfold send_key_sequence. induction l as [|e l IH]; intros s; cbn [fold_left]; [repeat split; symmetry; apply app_nil_r|].
  destruct (IH (push e s)) as (A & B & C & D). rewrite A, B, C, D. cbn [push log put_buf sv_trace sv_buf sv_sending sv_stage].
  repeat split.
  - unfold delivered. cbn [rev]. rewrite flat_map_app. cbn. apply app_nil_r.
  - now rewrite <- app_assoc.
Qed.

Lemma scan_plain left again l : forall i s, Forall plain_out l -> exists s',
  scan clock send_ok left again l i s = (s', (i + length l)%nat, true) /\
  delivered (sv_trace s') = delivered (sv_trace s) ++ l /\ sv_buf s' = sv_buf s /\ sv_stage s' = sv_stage s.
Proof.
  induction l as [|e l IH]; intros i s F.
  - exists s. cbn [scan length]. rewrite Nat.add_0_r. repeat split. symmetry. apply app_nil_r.
  - destruct (Forall_inv F) as (W & A & V & T). pose proof (Forall_inv_tail F) as Fl. cbn [scan length]. apply N.eqb_neq in T. rewrite W, A, V, T, sends_ok. cbn [andb].
    destruct (IH (S i) (log (ESend e true) (count_send s)) Fl) as (s' & E & D & B & G). exists s'. rewrite E.
    split; [f_equal; f_equal; lia|]. split; [|split; [exact B|exact G]]. rewrite D. unfold delivered. cbn [log count_send sv_trace rev].
    rewrite flat_map_app. cbn [flat_map delivered_one app]. now rewrite <- app_assoc.
Qed.

(** When nothing waits to be sent, an injected sequence is what is sent next. *)
Lemma inject_delivers l s : Forall plain_out l -> sv_buf s = [] -> sv_sending s = false ->
  let s' := server_run clock send_ok [SMessage (MInjectOutput l); SFlush] s in
  delivered (sv_trace s') = delivered (sv_trace s) ++ l /\ sv_buf s' = [].
Proof.
  intros F B S. cbn [server_run server_step on_message].
  destruct (pushed l s) as (P1 & P2 & P3 & _). rewrite B in P2. cbn [app] in P2. rewrite S in P3.
  set (s1 := send_key_sequence l s) in *.
  assert (Q : delivered (sv_trace (schedule_flush clock 0 s1)) = delivered (sv_trace s1) /\
              sv_buf (schedule_flush clock 0 s1) = l /\ sv_sending (schedule_flush clock 0 s1) = false).
  { unfold schedule_flush. destruct (sv_flush s1); [auto|]. cbn [log tick put_flush sv_trace sv_buf sv_sending].
    split; [|auto]. unfold delivered. cbn [rev]. rewrite flat_map_app. cbn. apply app_nil_r. }
  destruct Q as (Q1 & Q2 & Q3). set (s2 := schedule_flush clock 0 s1) in *. unfold flush_send_buffer. rewrite Q3.
  rewrite flush_loop_scan. set (s3 := put_flush None (put_sending true s2)).
  assert (B3 : sv_buf s3 = l) by exact Q2. assert (D3 : delivered (sv_trace s3) = delivered (sv_trace s)) by (etransitivity; [exact Q1|exact P1]).
  rewrite B3. cbn [skipn]. destruct (scan_plain 9 (flush_loop clock send_ok 8) l 0 s3 F) as (s4 & E & D & B4 & _).
  unfold sequence in *. rewrite E. cbn [fst put_sending put_buf sv_trace sv_buf]. rewrite D, D3, B4, B3. split; [reflexivity|].
  apply skipn_all2. cbn. lia.
Qed.
End Server.

(** ** All together *)

Section Typed.
Variable write_ok create_ok send_ok : nat -> bool.
Variable clock : nat -> Z.
Hypothesis writes : forall n, write_ok n = true.
Hypothesis sends_ok : forall n, send_ok n = true.

Theorem typed_text lay d cs typer s calls :
  right_for lay d -> (forall c, In c (unescaped cs) -> number_keys lay \/ d c <> None) -> Forall is_char cs -> ~ In 34 cs ->
  type_string d (encoded cs) = Some (typer (encoded cs)) ->
  sv_buf s = [] -> sv_sending s = false ->
  Forall loop_call calls -> (forall k, k < 0x200 -> Forall (stroke_call k) calls) ->
  (forall m, is_modifier m = true -> holds m calls = false) ->
  let before := kn_delivered (kernel_run (vs_log (vrun write_ok create_ok calls new_vdevices))) in
  exists l, parse_injected typer (quoted (encoded cs)) = Some l /\
    delivered (sv_trace (server_run clock send_ok [SMessage (MInjectOutput l); SFlush] s)) = delivered (sv_trace s) ++ l /\
    exists t, kn_delivered (kernel_run (vs_log (vrun write_ok create_ok (calls ++ map VSend l) new_vdevices))) = before ++ t /\
      reading lay (fun _ => false) None (strokes_of t) = (unescaped cs, None).
Proof.
  intros HR HN Fc Nq Ty Sb Ss LC SC HM before.
  rewrite type_encoded in Ty by exact Fc. injection Ty as Ty.
  assert (Nq' : ~ In """"%char (encoded cs)).
  { intros H. apply Nq. apply (encoded_byte cs 34); [exact Fc|reflexivity|]. exact H. }
  assert (G : Forall good_stroke (typer (encoded cs))) by (rewrite <- Ty; eapply chars_good; exact HR).
  destruct (injected_strokes typer lay (encoded cs) Nq' G) as (r & P & Fr & Rd).
  exists (ev0 k_any Not :: r). split; [exact P|]. split.
  - apply inject_delivers; auto. constructor; [repeat split; discriminate|]. eapply Forall_impl; [|exact Fr]. apply sent_plain.
  - pose proof (agree_run write_ok create_ok writes calls LC SC) as Ag.
    assert (Hm : forall m, is_modifier m = true -> kn_held (kernel_run (vs_log (vrun write_ok create_ok calls new_vdevices))) VKeyboard m = false).
    { intros m Im. destruct (modifier_board m Im) as ((R0 & R) & B & W).
      destruct (keyed_run write_ok create_ok writes m calls (conj R0 R) B W LC (SC m R)) as [H _]. rewrite H, (HM m Im). reflexivity. }
    unfold before. clear before. cbn [map]. set (s0 := vrun write_ok create_ok calls new_vdevices) in *.
    assert (E : vrun write_ok create_ok (calls ++ VSend (ev0 k_any Not) :: map VSend r) new_vdevices =
      vrun write_ok create_ok (map VSend r) (vstep write_ok create_ok (VSend (ev0 k_any Not)) s0)).
    { unfold s0, vrun. now rewrite fold_left_app. }
    rewrite E. destruct (send_any write_ok create_ok writes s0 Ag) as (Ag1 & t1 & D1 & H1 & S1).
    set (s1 := vstep write_ok create_ok (VSend (ev0 k_any Not)) s0) in *.
    destruct (devices_read write_ok create_ok writes lay r s1 (fun _ => false) None Ag1 Fr) as (_ & t2 & D2 & Rd2).
    { intros m Im. rewrite H1, (Hm m Im). reflexivity. }
    exists (t1 ++ t2). split; [rewrite D2, D1; now rewrite app_assoc|].
    unfold strokes_of in *. rewrite flat_map_app, S1. cbn [app]. rewrite Rd2, Rd, <- Ty. apply chars_read; auto.
    assert (Fu : forall l, Forall is_char l -> Forall (fun c => c < 0x110000) (unescaped l)).
    { clear. intros l. remember (length l) as n eqn:E. assert (L : (length l <= n)%nat) by lia. clear E. revert l L.
      induction n as [|n IH]; intros [|x l] L F; try constructor; try (cbn in L; lia).
      cbn [length] in L. inversion_clear F as [|? ? Fx Fl].
      assert (Gx : x < 0x110000) by (unfold is_char in Fx; lia).
      destruct (N.eq_dec x 92) as [->|Nx].
      - destruct l as [|y l]; [constructor; [reflexivity|constructor]|]. inversion_clear Fl as [|? ? Fy Fl2]. cbn [length] in L.
        change (unescaped (92 :: y :: l)) with (if (y =? 110) || (y =? 114) then 13 :: unescaped l
          else if y =? 116 then 9 :: unescaped l else 92 :: unescaped (y :: l)).
        destruct ((y =? 110) || (y =? 114)); [constructor; [reflexivity|apply IH; [lia|assumption]]|].
        destruct (y =? 116); [constructor; [reflexivity|apply IH; [lia|assumption]]|].
        constructor; [reflexivity|]. apply IH; [cbn; lia|]. constructor; assumption.
      - rewrite unescaped_other by exact Nx. constructor; [exact Gx|]. apply IH; [lia|assumption]. }
    apply Fu, Fc.
Qed.
End Typed.
