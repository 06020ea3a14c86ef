(** Theorems about `Any` in outputs (C07). *)
From Coq Require Import String List NArith ZArith Bool.
From Verif Require Import Base Key Match Stage Text ParseSeq Config Replay StageSpec StageProperties.
From Verif Require Import AnySpec AnyProofs.
Import ListNotations.
Local Open Scope N_scope.

Lemma fits_keyboard d s ks : fits d s ks -> Forall (fun k => is_keyboard_key k = true) ks.
Proof. induction 1; auto. Qed.

(** ** C07 Any only stands for keyboard keys *)

(** The keys reported for `Any` are exactly those which stand for it when the presses are laid
    beside the keys asked for. *)
Theorem C07_matched_partial : forall ex sq anys t,
  no_group ex -> Forall (fun e => ek e <> k_any) sq ->
  match_keys ex sq = Some (Matched, anys, t) -> fits (asked ex) (pressed sq) anys.
Proof. exact match_fits. Qed.
Print Assumptions C07_matched_partial.

(** A mapping which matches puts out the keys which stand for `Any`, as if they were written in
    its place: for all configurations, all states and all sequences of input events. *)
Theorem C07_output_partial : forall cs first sq dev up s s' r o inp ci,
  match_input cs first sq dev up s = (s', RMatch r o inp ci) ->
  is_nmm_mapping inp = false -> no_group inp -> at_once o ->
  Forall (fun e => ek e <> k_any) sq ->
  exists ks, fits (asked inp) (pressed sq) ks /\
    forall t c s2, s_any s2 = s_any s' -> apply_output o t c s2 = apply_output (written ks o) t c s2.
Proof.
  intros cs first sq dev up s s' r o inp ci H Hn Hg Ho Hs.
  apply match_input_any in H. destruct H as [t H]. rewrite Hn in H.
  exists (s_any s'). pose proof (match_fits _ _ _ _ Hg Hs H) as HF. split; [exact HF|].
  intros t0 c s2 H2. apply apply_written; auto.
  apply fits_keyboard in HF. apply Forall_forall. intros k Hk ->.
  apply (proj1 (Forall_forall _ _) HF) in Hk. discriminate.
Qed.
Print Assumptions C07_output_partial.

(** `Any >> o` types [o] with the key in the place of `Any`, for every keyboard key, any number of
    strokes and whatever the devices are. *)
Theorem C07_typed : forall o l,
  at_once o ->
  Forall (fun x => is_keyboard_key (fst x) = true /\ valid_device (snd x) = true /\
                   plays [] (written [fst x] o) <> None) l ->
  snd (run (only_any o) (CContexts [0%nat] :: strokes_of l) init_state)
  = flat_map (fun x => typing o (fst x)) l.
Proof. intros o l. exact (typed_any_start o l). Qed.
Print Assumptions C07_typed.

(** X before each key *)
Definition x_any : sequence := [ev0 45 Down; ev0 45 Up; ev0 k_any Down; ev0 k_any Up].
Example C07_typed_case :
  load "Any >> X Any"%string = only_any x_any /\ at_once x_any /\
  Forall (fun x => is_keyboard_key (fst x) = true /\ valid_device (snd x) = true /\
                   plays [] (written [fst x] x_any) <> None) [(30, 0%Z); (45, 1%Z); (48, 0%Z)] /\
  fmt (flat_map (fun x => typing x_any (fst x)) [(30, 0%Z); (45, 1%Z); (48, 0%Z)])
    = "+X -X +A -A +X -X +X -X +X -X +B -B"%string /\
  load "Any >> Any"%string = only_any [ev0 k_any Down] /\
  fmt (flat_map (typing [ev0 k_any Down]) [30; 48]) = "+A -A +B -B"%string.
Proof.
  split; [vm_compute; reflexivity|]. split; [repeat constructor; try discriminate; intros [H H']; discriminate|].
  split; [|vm_compute; repeat split; reflexivity].
  repeat constructor; try (vm_compute; reflexivity); vm_compute; discriminate.
Qed.

(** The first of the two mappings README.md:229-230: A is pressed while Control is held. *)
Example C07_output_case :
  let cs := load (lines ["Control{Any} >> Shift{Any}"; "Shift{Any} >> Control{Any}"])%string in
  let s := fst (played cs "+ControlLeft"%string) in
  let sq := [ev0 29 Down; ev0 30 Down] in
  exists s' r o inp,
    match_input cs true sq 0 false s = (s', RMatch r o inp 0) /\
    is_nmm_mapping inp = false /\ no_group inp /\ at_once o /\
    Forall (fun e => ek e <> k_any) sq /\ fits (asked inp) (pressed sq) [30] /\
    fmt (written [30] o) = "+ShiftLeft +A -A -ShiftLeft"%string.
Proof.
  do 4 eexists. split; [vm_compute; reflexivity|].
  split; [reflexivity|]. split; [repeat constructor; discriminate|].
  split; [repeat constructor; try discriminate; intros [H H']; discriminate|].
  split; [repeat constructor; discriminate|]. split; [|vm_compute; reflexivity].
  vm_compute. apply fits_key; [auto|]. apply (fits_any 30); [reflexivity|]. constructor.
Qed.

(** After `^` the keys of the last attempt to match are put out, not those of the match: A is
    pressed, B is pressed, A is released: B is put out for A, and nothing is put out for B. *)
Theorem C07_on_release_refuted : exists t,
  t = "Any >> X ^ Any"%string /\
  fmt (snd (played (load t) "+A -A"%string)) = "+X -X +A -A"%string /\
  fmt (snd (played (load t) "+A +B -A"%string)) = "+X -X +X -X +B -B"%string /\
  fmt (snd (played (load t) "+A +B -A -B"%string)) = "+X -X +X -X +B -B"%string.
Proof. eexists. split; [reflexivity|]. repeat split; vm_compute; reflexivity. Qed.
Print Assumptions C07_on_release_refuted.

(** In a group the key which stands for `Any` is not put out when it is the first to be pressed, or
    another key of the group is put out instead. *)
Theorem C07_group_refuted : exists t u,
  t = "(A Any) >> X Any"%string /\ u = "(Any A) >> X Any"%string /\
  fmt (snd (played (load t) "+A +B"%string)) = "+X -X +B -B"%string /\
  fmt (snd (played (load t) "+B +A"%string)) = "+X -X"%string /\
  fmt (snd (played (load u) "+A +B"%string)) = "+X -X +A -A"%string.
Proof. do 2 eexists. do 2 (split; [reflexivity|]). repeat split; vm_compute; reflexivity. Qed.
Print Assumptions C07_group_refuted.
