(** Theorems about passing keys through and replacing them (C11, C12). *)
From Coq Require Import String List Arith NArith ZArith Bool Lia Sorted.
From Verif Require Import Base Key Match Stage Text ParseSeq Config Replay StageSpec StageProperties PassSpec StagePass.
Import ListNotations.
Local Open Scope N_scope.

Definition inputs (l : list (event * Z)) : list call := map (fun x => CInput (fst x) (snd x)) l.

(** ** C12 Simple remappings act as pure key substitution *)
Theorem C12_substitution : forall cs il ts l,
  tables cs il ts ->
  Forall (fun ab => is_device_key (fst ab) = true /\ is_device_key (snd ab) = true) (concat ts) ->
  typed_on [] no_device l ->
  unambiguous (concat ts) (map (fun x => ek (fst x)) l) ->
  map action (snd (run cs (CContexts il :: inputs l) init_state)) =
  map (substituted (concat ts)) (effective [] (map fst l)).
Proof.
  intros cs il ts l Ht Hk Hl Hu. cbn [run do_call].
  destruct (contexts_start cs il ts Ht Hk) as [H1 H2].
  destruct (set_active_client_contexts cs il init_state) as [s1 o1]. cbn [fst snd] in H1, H2. subst o1.
  pose proof (run_substitutes cs il ts Ht Hk (map (fun x => ek (fst x)) l) Hu l [] [] no_device s1 Hl
    (fun k => iff_refl _)) as H.
  unfold inputs. destruct (run cs (map (fun x => CInput (fst x) (snd x)) l) s1) as [s2 o2]. cbn [snd app] in *.
  apply H.
  - apply Forall_forall. intros x Hx. apply in_map_iff. exists x. auto.
  - apply pinv_start. exact H1.
Qed.
Print Assumptions C12_substitution.

(** Two keys which are replaced by the same key: that key is released while the
    second of them is still down. *)
Theorem C12_same_target_refuted : exists t l,
  tables (load t) [0%nat] [[(30, 45); (48, 45)]] /\ typed_on [] no_device l /\
  map fst l = [ev0 30 Down; ev0 48 Down; ev0 30 Up] /\
  map action (snd (run (load t) (CContexts [0%nat] :: inputs l) init_state)) =
    [(45, Down); (45, Down); (45, Up)].
Proof.
  exists (lines ["A >> X"; "B >> X"])%string, [(ev0 30 Down, 0%Z); (ev0 48 Down, 0%Z); (ev0 30 Up, 0%Z)].
  split; [|split; [vm_compute; intuition congruence|split; vm_compute; reflexivity]].
  split; [repeat constructor|]. constructor; [|constructor]. eexists. split; [vm_compute; reflexivity|].
  split; [|repeat split]. repeat constructor; vm_compute; discriminate.
Qed.
Print Assumptions C12_same_target_refuted.

(** Z and Y swapped, Escape on CapsLock *)
Definition cfg7 : list context := load (lines ["Z >> Y"; "Y >> Z"; "CapsLock >> Escape"])%string.
Definition typed7 : list (event * Z) :=
  map (fun e => (e, 0%Z)) [ev0 44 Down; ev0 44 Down; ev0 30 Down; ev0 44 Up; ev0 21 Down; ev0 58 Down;
                           ev0 21 Up; ev0 58 Up; ev0 30 Up; ev0 30 Up].
Example C12_case :
  tables cfg7 [0%nat] [[(44, 21); (21, 44); (58, 1)]] /\ typed_on [] no_device typed7 /\
  unambiguous [(44, 21); (21, 44); (58, 1)] (map (fun x => ek (fst x)) typed7) /\
  fmt (snd (run cfg7 (CContexts [0%nat] :: inputs typed7) init_state)) = "+Y +Y +A -Y +Z +Escape -Z -Escape -A"%string.
Proof.
  split.
  { split; [repeat constructor|]. constructor; [|constructor]. eexists. split; [vm_compute; reflexivity|].
    split; [|repeat split]. repeat constructor; vm_compute; discriminate. }
  split; [vm_compute; intuition congruence|]. split; [|vm_compute; reflexivity].
  intros a b Ha Hb. cbn in Ha, Hb. 
  repeat (destruct Ha as [Ha|Ha]; [|try (now destruct Ha)]);
  repeat (destruct Hb as [Hb|Hb]; [|try (now destruct Hb)]); subst; vm_compute; congruence.
Qed.

(** ** C11 Unmapped keyboard is passed through unchanged *)
Theorem C11_pass_through : forall cs il l,
  tables cs il (map (fun _ => []) il) -> typed_on [] no_device l ->
  map action (snd (run cs (CContexts il :: inputs l) init_state)) =
  map action (effective [] (map fst l)).
Proof.
  intros cs il l Ht Hl.
  assert (E : concat (map (fun _ : nat => ([] : list (key * key))) il) = []) by (clear; induction il; auto).
  rewrite (C12_substitution cs il (map (fun _ => []) il) l Ht).
  - rewrite E. reflexivity.
  - rewrite E. constructor.
  - exact Hl.
  - rewrite E. intros a b _ _ H. exact H.
Qed.
Print Assumptions C11_pass_through.

(** The only block which is active has no mappings (the other one would map A). *)
Definition cfg8 : list context :=
  let c := load (lines ["A >> X"])%string in
  Ctx [] [] [] None None [] all_device_bits false false :: c.
Example C11_case :
  tables cfg8 [0%nat] [[]] /\ typed_on [] no_device typed7 /\
  fmt (snd (run cfg8 (CContexts [0%nat] :: inputs typed7) init_state)) = "+Z +Z +A -Z +Y +CapsLock -Y -CapsLock -A"%string /\
  fmt (snd (run cfg8 (CContexts [1%nat] :: inputs typed7) init_state)) = "+Z +Z +X -Z +Y +CapsLock -Y -CapsLock -X"%string.
Proof.
  split; [split; [repeat constructor|constructor; [|constructor]; eexists; split; [reflexivity|repeat split; constructor]]|].
  split; [vm_compute; intuition congruence|]. split; vm_compute; reflexivity.
Qed.
