(** Properties C80 to C83 of grabbed devices, with their assumptions and a non-trivial case
    beside each. *)
From Coq Require Import String Ascii List Arith NArith ZArith Bool Lia FinFun.
From Verif Require Import Base Key Text ClientProofs Stage ParseSeq Config Client ClientSpec ClientProperties Device.
From Verif Require Import Grab GrabSpec GrabProofs GrabRun GrabAlign.
Import ListNotations.
Local Open Scope Z_scope.

(** ** C80 The devices which are wanted are grabbed *)

(** Devices may come and go at any time, also while the server looks for them.  Unless the
    kernel has a change to report, exactly the devices are grabbed which are wanted and can
    be. *)
Theorem C80_devices_partial : forall search held_keys write_ok create_ok w mice filters during l,
  proper w -> (forall v, during = Some v -> proper v) ->
  let y0 := session search held_keys true create_ok w mice filters during in
  orderly search held_keys true write_ok create_ok l y0 ->
  let y := drun search held_keys true write_ok create_ok l y0 in
  let grabbed := is_grabbed (gs_log (ds_grab y)) in
  ds_pending y = false ->
  (forall n, In n (ds_world y) -> grabbed (n_dev n) = true -> wanted search filters mice n) /\
  (forall n, In n (ds_world y) -> wanted search filters mice n -> n_grabs n = true -> grabbed (n_dev n) = true) /\
  (forall dev, grabbed dev = true -> exists n, In n (ds_world y) /\ n_dev n = dev).
Proof.
  intros search hk wo co w mice filters during l P Du y0 O y g Pe.
  pose proof (settled_run search hk wo co mice filters l y0 (settled_session search hk co w mice filters during P Du) O) as S0.
  fold y in S0. destruct S0 as [[A1 A2 A3 A4] Em Ef Mo P' K KP Ch Fi]. destruct (Fi Pe) as (F1 & F2 & F3).
  rewrite Em, Ef in F1, F2. unfold g. split; [|split].
  - intros n Hn Q. apply F1; [exact Hn|]. now apply A4.
  - intros n Hn W G. apply A4. now apply F2.
  - intros dev Q. apply F3. now apply A4.
Qed.
Print Assumptions C80_devices_partial.

(** And a change is noticed with the next turn of the loop: it is over with it when no
    virtual device can be created. *)
Theorem C80_noticed : forall search held_keys write_ok create_ok w mice filters during l r,
  proper w -> (forall v, during = Some v -> proper v) ->
  let y0 := session search held_keys true create_ok w mice filters during in
  orderly search held_keys true write_ok create_ok l y0 ->
  let y := drun search held_keys true write_ok create_ok l y0 in
  let y' := drun search held_keys true write_ok create_ok (l ++ [DTurn (Some r) None]) y0 in
  ds_over y = false ->
  ds_pending y' = false /\ ds_world y' = ds_world y /\
  (ds_pending y = true -> (forall n, create_ok n = true) -> ds_over y' = false).
Proof.
  intros search hk wo co w mice filters during l r P Du y0 O y y' Ov.
  pose proof (settled_run search hk wo co mice filters l y0 (settled_session search hk co w mice filters during P Du) O) as S0. fold y in S0.
  unfold y', drun. rewrite fold_left_app. cbn [fold_left dstep_run]. fold (drun search hk true wo co l y0). fold y. clearbody y. clear y' O y0.
  destruct S0 as [A Em Ef Mo P' K KP Ch Fi]. unfold loop_turn. rewrite Ov. cbn [option_map read_input_event sl_monitor sl_client]. rewrite Mo. cbn [andb].
  destruct (ds_pending y) eqn:Pe.
  - unfold update_devices. cbn [put_grab ds_grab put_changed gs_changed world_may_change].
    match goal with |- context [devices_updated co ?x] => destruct (updated_parts co x) as (U1 & U2 & U3 & U4) end.
    rewrite U1, U2. cbn [put_grab put_grab_begin ds_world ds_pending]. split; [reflexivity|split; [reflexivity|]]. intros _ C.
    unfold devices_updated. match goal with |- context [update_forward_devices co ?a ?b] => pose proof (update_forward_ok co a b C) as X; destruct (update_forward_devices co a b) as [v ok] end.
    cbn [snd] in X. subst ok. exact Ov.
  - assert (NC : forall d z, gs_changed (ds_grab z) = false -> update_devices search hk true co d z = z) by (intros d z H; unfold update_devices; now rewrite H).
    split; [|split; [|discriminate]].
    + destruct (sl_client r); rewrite put_grab_same; [now rewrite NC|]. destruct (read_devices _ _ _) as [| |i e|]; rewrite ?NC by exact Ch; auto.
      destruct (to_key_event e) as [k|]; [|exact Pe]. destruct (N.eqb _ _); rewrite NC by exact Ch; exact Pe.
    + destruct (sl_client r); rewrite put_grab_same; [now rewrite NC|]. destruct (read_devices _ _ _) as [| |i e|]; rewrite ?NC by exact Ch; auto.
      destruct (to_key_event e) as [k|]; [|reflexivity]. destruct (N.eqb _ _); rewrite NC by exact Ch; reflexivity.
Qed.
Print Assumptions C80_noticed.

(** When the session ends every device is released. *)
Theorem C80_released : forall search held_keys write_ok create_ok w mice filters during l dev,
  proper w -> (forall v, during = Some v -> proper v) ->
  let y0 := session search held_keys true create_ok w mice filters during in
  orderly search held_keys true write_ok create_ok l y0 ->
  let y := drun search held_keys true write_ok create_ok l y0 in
  is_grabbed (gs_log (ungrab_all held_keys (ds_grab y))) dev = false.
Proof.
  intros search hk wo co w mice filters during l dev P Du y0 O y.
  pose proof (settled_run search hk wo co mice filters l y0 (settled_session search hk co w mice filters during P Du) O) as S0. fold y in S0.
  destruct S0 as [[A1 A2 A3 A4] _ _ _ _ _ _ _ _]. unfold ungrab_all.
  match goal with |- is_grabbed (gs_log (put_gdevices [] ?s)) dev = false => change (is_grabbed (gs_log s) dev = false) end.
  now apply ungrab_all_log.
Qed.
Print Assumptions C80_released.

(** Devices: a keyboard, a mouse, a gamepad, a power button, a lid switch *)
Definition letters : list N := map N.of_nat (seq 1 80).
Definition a_keyboard (event : Z) (dev : nat) : node :=
  Node event dev true true true (T "Keyboard") (T "usb-keyboard") 0x120013 letters 0 [] 0.
Definition a_mouse (event : Z) (dev : nat) : node :=
  Node event dev true true true (T "Mouse") (T "usb-mouse") 0x17 [0x110; 0x111; 0x112]%N 0x903 [] 0.
Definition a_gamepad (event : Z) (dev : nat) : node :=
  Node event dev true true true (T "Gamepad") (T "usb-gamepad") 0x1b [0x130; 0x131]%N 0 [(0%N, Rg (-128) 127); (1%N, Rg (-128) 127)] 0.
Definition a_button (event : Z) (dev : nat) : node :=
  Node event dev true true true (T "Power Button") [] 0x3 [0x74]%N 0 [] 0.
Definition a_lid (event : Z) (dev : nat) : node :=
  Node event dev true true true (T "Lid Switch") [] 0x23 [0x8f]%N 0 [] 1.
Definition released (_ _ : nat) : option (list N) := Some [].
Definition fine (_ : nat) : bool := true.
Definition no_regex (_ _ : text) : bool := false.
Definition quiet : ready := Ready false false (fun _ => None).
Definition reads_from (dev : nat) (e : ievent) : ready := Ready false false (fun x => if (x =? dev)%nat then Some (Some e) else None).
Definition begin (w : list node) (mice : bool) (filters : list (filter * bool)) : dsys :=
  session no_regex released true fine w mice filters None.
Definition continue (l : list dstep) (y : dsys) : dsys := drun no_regex released true fine fine l y.
Definition grabs (y : dsys) : list nat := List.filter (is_grabbed (gs_log (ds_grab y))) (seq 0 10).
Definition by_name (s : string) (invert : bool) : filter * bool := (Filter (T s) false invert, false).
Definition by_id (s : string) (invert : bool) : filter * bool := (Filter (T s) false invert, true).

(** Deciding the conditions for the cases below *)
Fixpoint distinctb (l : list Z) : bool :=
  match l with [] => true | x :: r => negb (existsb (Z.eqb x) r) && distinctb r end.
Lemma distinctb_true l : distinctb l = true -> NoDup l.
Proof.
  induction l as [|x l IH]; intro H; [constructor|]. cbn [distinctb] in H. apply andb_prop in H. destruct H as [H1 H2].
  constructor; [|auto]. intro X. apply negb_true_iff in H1. assert (existsb (Z.eqb x) l = true); [|congruence].
  apply existsb_exists. exists x. split; [exact X|apply Z.eqb_refl].
Qed.
Definition properb (w : list node) : bool := distinctb (map n_event w) && distinctb (map (fun n => Z.of_nat (n_dev n)) w).
Lemma properb_true w : properb w = true -> proper w.
Proof.
  unfold properb, proper. intro H. apply andb_prop in H. destruct H as [H1 H2]. split; [now apply distinctb_true|].
  apply distinctb_true in H2. rewrite <- (map_map n_dev Z.of_nat) in H2. now apply NoDup_map_inv in H2.
Qed.
Definition keepsb (w open : list node) : bool :=
  forallb (fun n => forallb (fun m => eqb (n_event n =? n_event m) (n_dev n =? n_dev m)%nat) open) w.
Lemma keepsb_true w o : keepsb w o = true -> keeps_numbers w o.
Proof.
  intros H n m Hn Hm. unfold keepsb in H. rewrite forallb_forall in H. specialize (H n Hn). rewrite forallb_forall in H. specialize (H m Hm).
  apply eqb_prop in H. rewrite <- Z.eqb_eq, <- Nat.eqb_eq, H. tauto.
Qed.
Definition node_dec (n m : node) : {n = m} + {n <> m}.
Proof. repeat decide equality. Defined.
Definition samesb (w open : list node) : bool :=
  forallb (fun n => forallb (fun m => negb (n_dev n =? n_dev m)%nat || if node_dec n m then true else false) open) w.
Lemma samesb_true w o : samesb w o = true -> keeps_properties w o.
Proof.
  intros H n m Hn Hm Q. unfold samesb in H. rewrite forallb_forall in H. specialize (H n Hn). rewrite forallb_forall in H. specialize (H m Hm).
  rewrite Q, Nat.eqb_refl in H. cbn [negb orb] in H. destruct (node_dec n m) as [->|]; [auto|discriminate].
Qed.
Fixpoint orderlyb (l : list dstep) (y : dsys) : bool :=
  match l with
  | [] => true
  | x :: r =>
      match x with
      | DTurn _ None | DSend _ => true
      | DTurn _ (Some w) | DWorld w =>
          properb w && (keepsb w (open_nodes (ds_grab y)) && samesb w (open_nodes (ds_grab y)))
      | DSilent _ => false
      end && orderlyb r (dstep_run no_regex released true fine fine x y)
  end.
Lemma orderlyb_true l : forall y, orderlyb l y = true -> orderly no_regex released true fine fine l y.
Proof.
  assert (Q : forall w y, properb w && (keepsb w (open_nodes (ds_grab y)) && samesb w (open_nodes (ds_grab y))) = true ->
    proper w /\ keeps_numbers w (open_nodes (ds_grab y)) /\ keeps_properties w (open_nodes (ds_grab y))).
  { intros w y H. apply andb_prop in H. destruct H as [H1 H2]. apply andb_prop in H2. destruct H2 as [H2 H3].
    split; [now apply properb_true|]. split; [now apply keepsb_true|now apply samesb_true]. }
  induction l as [|x l IH]; intros y H; [exact Logic.I|]. cbn [orderlyb] in H. apply andb_prop in H. destruct H as [H1 H2].
  split; [|now apply IH]. destruct x as [r [w|]|e|w|w]; cbn [step_orderly]; auto. discriminate H1.
Qed.

(** A mouse is unplugged and a gamepad gets its number after that was noticed; a second
    keyboard is plugged in while the server looks for devices, and is found in the next
    turn. *)
Example C80_case :
  let w0 := [a_keyboard 0 0; a_mouse 1 1; a_button 2 2; a_lid 3 3] in
  let w1 := [a_keyboard 0 0; a_button 2 2; a_lid 3 3] in
  let w2 := [a_keyboard 0 0; a_gamepad 1 4; a_button 2 2; a_lid 3 3] in
  let w3 := a_keyboard 4 5 :: w2 in
  let y0 := begin w0 true [by_name "Gamepad" false; by_name "Power Button" true] in
  let l := [DWorld w1; DTurn (Some quiet) None; DWorld w2; DTurn (Some quiet) (Some w3)] in
  let l' := l ++ [DTurn (Some quiet) None] in
  proper w0 /\ orderly no_regex released true fine fine l' y0 /\
  grabs y0 = [0; 1]%nat /\ grabs (continue [DWorld w1; DTurn (Some quiet) None] y0) = [0]%nat /\
  ds_pending (continue l y0) = true /\ grabs (continue l y0) = [0; 4; 5]%nat /\
  ds_pending (continue l' y0) = false /\ grabs (continue l' y0) = [0; 4; 5]%nat /\
  grabs (put_grab (ungrab_all released (ds_grab (continue l' y0))) y0) = [].
Proof.
  cbn zeta. split; [apply properb_true; vm_compute; reflexivity|]. split; [|vm_compute; repeat split; reflexivity].
  apply orderlyb_true. vm_compute. reflexivity.
Qed.

(** Missing: the names in /dev/input/by-id are made after the device was reported, and are
    not watched.  A keyboard which is to be grabbed or skipped by its id is looked at too
    early. *)
Theorem C80_id_refuted : exists w w' filters n,
  let y0 := begin [] true filters in
  let y := continue [DWorld w; DTurn (Some quiet) None; DSilent w'; DTurn (Some quiet) None] y0 in
  orderly no_regex released true fine fine [DWorld w; DTurn (Some quiet) None] y0 /\
  ds_pending y = false /\ In n (ds_world y) /\ n_grabs n = true /\
  ~ wanted no_regex filters true n /\ is_grabbed (gs_log (ds_grab y)) (n_dev n) = true.
Proof.
  set (early := Node 0 0 true true true (T "Keyboard") [] 0x120013 letters 0 [] 0).
  exists [early], [a_keyboard 0 0], [by_id "usb-keyboard" true], (a_keyboard 0 0). cbn zeta.
  split; [apply orderlyb_true; vm_compute; reflexivity|]. split; [vm_compute; reflexivity|]. split; [left; reflexivity|].
  split; [reflexivity|]. split; [|vm_compute; reflexivity].
  intro W. apply accepted_iff in W. vm_compute in W. discriminate W.
Qed.
Print Assumptions C80_id_refuted.

(** Missing: the kernel gives the number of an unplugged device to the next one.  When that
    happens before the server noticed, it takes the new device for the old one: it is not
    grabbed, and reading the old one ends the session. *)
Theorem C80_reuse_refuted : exists w w' filters n,
  let y0 := begin w true filters in
  let y := continue [DWorld w'; DTurn (Some quiet) None] y0 in
  proper w /\ proper w' /\ ds_pending y = false /\ In n (ds_world y) /\ n_grabs n = true /\
  wanted no_regex filters true n /\ is_grabbed (gs_log (ds_grab y)) (n_dev n) = false /\
  ds_over (continue [DTurn (Some (Ready false false (fun x => if (x =? 0)%nat then Some None else None))) None] y) = true.
Proof.
  exists [a_keyboard 0 0], [a_keyboard 0 1], [], (a_keyboard 0 1). cbn zeta.
  split; [apply properb_true; vm_compute; reflexivity|]. split; [apply properb_true; vm_compute; reflexivity|].
  split; [vm_compute; reflexivity|]. split; [left; reflexivity|]. split; [reflexivity|].
  split; [apply accepted_iff; vm_compute; reflexivity|]. split; vm_compute; reflexivity.
Qed.
Print Assumptions C80_reuse_refuted.

(** ** C81 The server does not grab its own devices *)

(** A device which is named like the virtual keyboard, or like the forward device of a
    device whose name has up to 68 characters, is never grabbed. *)
Definition named_by_server (t : text) : Prop :=
  t = T "keymapper" \/ exists name, (length name <= 68)%nat /\ t = forward_node_name name.
Definition always_own (dev : nat) (w : list node) : Prop := forall n, In n w -> n_dev n = dev -> named_by_server (n_name n).

Lemma named_is_own t : named_by_server t -> own_name t.
Proof.
  intros [->|(name & L & ->)]; [exists []; reflexivity|]. exists (name ++ T "; "). unfold forward_node_name, get_forward_device_name.
  rewrite firstn_all2; [now rewrite <- app_assoc|]. rewrite !app_length. cbn. lia.
Qed.

Theorem C81_own_partial : forall search held_keys monitor_ok write_ok create_ok w mice filters during l dev p,
  always_own dev w -> (forall v, during = Some v -> always_own dev v) ->
  Forall (step_sees (always_own dev)) l ->
  ~ In (GGrab dev p) (gs_log (ds_grab (drun search held_keys monitor_ok write_ok create_ok l
                                         (session search held_keys monitor_ok create_ok w mice filters during)))).
Proof.
  intros search hk mo wo co w mice filters during l dev p Hw Du F.
  assert (SC : forall v s, always_own dev v -> only_foreign dev (gs_log s) -> only_foreign dev (gs_log (update_scan search hk v s))).
  { intros v s V. apply foreign_update. intros n Hn Q. apply named_is_own. now apply V. }
  pose proof (logs_session search hk mo co (only_foreign dev) (always_own dev) SC w mice filters during) as L0.
  assert (L1 : logs (only_foreign dev) (always_own dev) (session search hk mo co w mice filters during)).
  { apply L0; auto. intros q []. }
  destruct (logs_run search hk mo wo co (only_foreign dev) (always_own dev) SC l _ L1 F) as [_ R]. apply R.
Qed.
Print Assumptions C81_own_partial.

(** The description of a device with a forward device has its keys of up to 512, its axes, and
    no others. *)
Theorem C81_described : forall w d x, gx_ext (describe w d) = Some x ->
  (forall k, In k (d_keys x) <-> has_key_code (gd_node d) k) /\ d_rel x = n_rel (gd_node d) /\ d_abs x = n_abs (gd_node d).
Proof.
  intros w d x H. unfold describe in H. cbn [gx_ext] in H. destruct (_ && _); [|discriminate H]. injection H as <-.
  cbn [d_keys d_rel d_abs]. split; [|split; reflexivity]. intro k. apply key_bits_in.
Qed.
Print Assumptions C81_described.
Example C81_described_case : exists x, gx_ext (describe [a_mouse 1 1] (GD 1 (a_mouse 1 1) (G default_abs_range default_abs_range false) false)) = Some x.
Proof. eexists. vm_compute. reflexivity. Qed.
(** The buttons with greater codes (BTN_TRIGGER_HAPPY1 is 0x2c0) are missing in it, so that the
    forward device never has them. *)
Theorem C81_buttons_refuted : exists w d x, In (gd_node d) w /\ gx_ext (describe w d) = Some x /\
  In 0x2c0%N (n_keys (gd_node d)) /\ ~ In 0x2c0%N (d_keys x).
Proof.
  set (n := Node 0 0 true true true (T "Joystick") [] 0xB [0x110; 0x2c0]%N 3%N [] 0).
  exists [n], (GD 0 n (G default_abs_range default_abs_range false) false). eexists. split; [left; reflexivity|]. split; [vm_compute; reflexivity|].
  split; [right; left; reflexivity|]. intros [F|[]]. discriminate F.
Qed.
Print Assumptions C81_buttons_refuted.

(** The node of the forward device the server creates for a device *)
Definition forward_node (event : Z) (dev : nat) (x : gdesc) (d : vdesc) : node :=
  Node event dev true true true (forward_node_name (gx_name x)) [] 0x7 (d_keys d) (d_rel d) (d_abs d) 0.
(** The devices there are: [w], and one for each forward device, in the order they were
    created, with numbers of their own. *)
Fixpoint forward_nodes (i : nat) (l : list gdesc) : list node :=
  match l with
  | [] => []
  | x :: r => match gx_ext x with
              | Some d => forward_node (100 + Z.of_nat i) (100 + i) x d :: forward_nodes (S i) r
              | None => forward_nodes i r
              end
  end.
Definition with_forward (w : list node) (y : dsys) : list node := w ++ forward_nodes 0 (ds_server y).

Example C81_case :
  let y0 := begin [a_keyboard 0 0; a_mouse 1 1] true [] in
  let w1 := with_forward [a_keyboard 0 0; a_mouse 1 1] y0 in
  let l := [DWorld w1; DTurn (Some quiet) None] in
  length w1 = 3%nat /\ always_own 100 w1 /\ Forall (step_sees (always_own 100)) l /\
  is_grabbed (gs_log (ds_grab (continue l y0))) 1 = true /\ length (gs_log (ds_grab (continue l y0))) = 2%nat.
Proof.
  cbn zeta. set (w1 := with_forward _ _). assert (A : always_own 100 w1).
  { intros n Hn Q. right. exists (T "Mouse"). split; [vm_compute; lia|]. revert Hn Q. vm_compute.
    intros [<-|[<-|[<-|[]]]] Q; try discriminate Q. reflexivity. }
  split; [reflexivity|]. split; [exact A|]. split; [constructor; [exact A|constructor; [exact Logic.I|constructor]]|]. vm_compute. auto.
Qed.

(** Missing: the name of a forward device is cut to 79 characters.  With a mouse whose name
    has 69, the server grabs the device it created for it and creates one for that, and so
    on without end.  Nothing happens here but what the server does itself. *)
Definition long_name : text := T "Very Long Manufacturer Name Incorporated Wireless Gaming Mouse Model2".
Definition long_mouse : node := Node 1 1 true true true long_name [] 0x7 [0x110; 0x111; 0x112]%N 0x103 [] 0.
Fixpoint cascade (k : nat) : dsys :=
  match k with
  | O => begin [long_mouse] true []
  | S k => continue [DWorld (with_forward [long_mouse] (cascade k)); DTurn (Some quiet) None] (cascade k)
  end.

Definition cut_name : text := forward_node_name long_name.
Definition chained (i : nat) : node := Node (100 + Z.of_nat i) (100 + i) true true true cut_name [] 0x7 [0x110; 0x111; 0x112]%N 0x103 [] 0.
Definition chain (k : nat) : list node := long_mouse :: map chained (seq 0 k).
Notation opened n := (GD (n_event n) n
  (G (get_device_abs_axis_range n ABS_VOLUME) (get_device_abs_axis_range n ABS_MISC) (has_highres_wheel (n_rel n))) false).

Lemma in_chain k n : In n (chain k) -> n = long_mouse \/ exists i, (i < k)%nat /\ n = chained i.
Proof.
  intros [<-|H]; [auto|]. apply in_map_iff in H. destruct H as (i & <- & Hi). apply List.in_seq in Hi. right. exists i. split; [lia|reflexivity].
Qed.
Lemma chain_snoc k : chain (S k) = chain k ++ [chained k].
Proof. unfold chain. rewrite seq_S, map_app. reflexivity. Qed.
Lemma chain_proper k : proper (chain k).
Proof.
  unfold proper, chain. cbn [map]. rewrite !map_map. split; constructor.
  - intro H. apply in_map_iff in H. destruct H as (i & Hi & _). cbn [n_event chained long_mouse] in Hi. lia.
  - apply FinFun.Injective_map_NoDup; [|apply seq_NoDup]. intros a b H. cbn [n_event chained] in H. lia.
  - intro H. apply in_map_iff in H. destruct H as (i & Hi & _). cbn [n_dev chained long_mouse] in Hi. lia.
  - apply FinFun.Injective_map_NoDup; [|apply seq_NoDup]. intros a b H. cbn [n_dev chained] in H. lia.
Qed.
Lemma chain_accepted k n : In n (chain k) -> accepted no_regex [] true n = true.
Proof. intro H. apply in_chain in H. destruct H as [->|(i & _ & ->)]; vm_compute; reflexivity. Qed.

Lemma chain_nodes k : forall l i, (forall n, In n l -> In n (chain k)) ->
  forward_nodes i (map (describe (chain k)) (map (fun n => opened n) l)) = map chained (seq i (length l)).
Proof.
  induction l as [|n l IH]; intros i H; [reflexivity|]. cbn [map forward_nodes length seq].
  assert (A : alive (chain k) n = true).
  { apply existsb_exists. exists n. split; [apply H; now left|apply Nat.eqb_refl]. }
  unfold describe at 1. cbn [gx_ext gd_node]. rewrite A.
  assert (M : has_mouse_axes n = true /\ get_device_keys n = [0x110; 0x111; 0x112]%N /\ n_rel n = 0x103%N /\ n_abs n = [] /\ forward_node_name (n_name n) = cut_name).
  { destruct (in_chain k n (H n (or_introl eq_refl))) as [->|(j & _ & ->)]; vm_compute; auto. }
  destruct M as (M1 & M2 & M3 & M4 & M5). rewrite M1. cbn [andb orb]. unfold forward_node. unfold describe at 1. cbn [gx_name gd_node]. rewrite A, M5.
  cbn [d_keys d_rel d_abs]. rewrite M2, M3, M4. f_equal. apply IH. intros m Hm. apply H. now right.
Qed.

Record chained_up (k : nat) (y : dsys) : Prop := {
  cu_world : ds_world y = chain k;
  cu_devices : gs_devices (ds_grab y) = map (fun n => opened n) (chain k);
  cu_filters : gs_filters (ds_grab y) = [];
  cu_mice : gs_mice (ds_grab y) = true;
  cu_monitor : gs_monitor (ds_grab y) = true;
  cu_over : ds_over y = false;
  cu_server : ds_server y = map (describe (chain k)) (map (fun n => opened n) (chain k));
  cu_logged : forall dev, is_grabbed (gs_log (ds_grab y)) dev = true <-> In dev (map n_dev (chain k))
}.

Lemma chain_updated k : updated no_regex [] true (map (fun n => opened n) (chain k)) (chain (S k)) = map (fun n => opened n) (chain (S k)).
Proof.
  unfold updated. rewrite chain_snoc at 3. rewrite map_app. f_equal.
  - assert (R : List.filter (reports no_regex [] true (chain (S k))) (map (fun n => opened n) (chain k)) = map (fun n => opened n) (chain k)).
    { assert (Q : forall l : list gdevice, (forall d, In d l -> reports no_regex [] true (chain (S k)) d = true) -> List.filter (reports no_regex [] true (chain (S k))) l = l).
      { induction l as [|d l IH]; intro H; [reflexivity|]. cbn [List.filter]. rewrite H by now left. f_equal. apply IH. intros x Hx. apply H. now right. }
      apply Q. intros d Hd. apply in_map_iff in Hd. destruct Hd as (n & <- & Hn). unfold reports. apply existsb_exists. exists n.
      assert (Hn' : In n (chain (S k))) by (rewrite chain_snoc; apply in_or_app; now left). split; [exact Hn'|].
      rewrite (chain_accepted _ _ Hn'). cbn [gd_event andb]. apply Z.eqb_refl. }
    rewrite R, map_map. reflexivity.
  - unfold newcomers. rewrite chain_snoc, filter_app.
    assert (R : List.filter (fun n => accepted no_regex [] true n && n_grabs n && negb (has_event (n_event n) (map (fun n => opened n) (chain k)))) (chain k) = []).
    { assert (Q : forall l, (forall n, In n l -> In n (chain k)) ->
        List.filter (fun n => accepted no_regex [] true n && n_grabs n && negb (has_event (n_event n) (map (fun n => opened n) (chain k)))) l = []).
      { induction l as [|n l IH]; intro H; [reflexivity|]. cbn [List.filter].
        assert (HE : has_event (n_event n) (map (fun n => opened n) (chain k)) = true).
        { apply has_event_in. rewrite map_map. cbn [gd_event]. apply in_map. apply H. now left. }
        rewrite HE. cbn [negb]. rewrite andb_false_r. apply IH. intros m Hm. apply H. now right. }
      apply Q. auto. }
    rewrite R. cbn [app List.filter]. assert (A : accepted no_regex [] true (chained k) = true) by (vm_compute; reflexivity). rewrite A.
    assert (HE : has_event (n_event (chained k)) (map (fun n => opened n) (chain k)) = false).
    { destruct (has_event _ _) eqn:Q; [|reflexivity]. apply has_event_in in Q. rewrite map_map in Q. cbn [gd_event] in Q. apply in_map_iff in Q.
      destruct Q as (n & N1 & N2). apply in_chain in N2. destruct N2 as [->|(i & Hi & ->)]; cbn [n_event chained long_mouse] in N1; lia. }
    rewrite HE. reflexivity.
Qed.

Lemma cascade_chained k : chained_up k (cascade k).
Proof.
  induction k as [|k [C1 C2 C3 C4 C5 C6 C7 C8]].
  - constructor; try (vm_compute; reflexivity). intro dev. vm_compute. destruct dev as [|[|dev]]; split; intro H; try discriminate H; auto;
      repeat (destruct H as [H|H]; try discriminate H); try contradiction.
  - cbn [cascade]. set (y := cascade k) in *. clearbody y. unfold continue, drun. cbn [fold_left dstep_run].
    assert (WF : with_forward [long_mouse] y = chain (S k)).
    { unfold with_forward. rewrite C7, chain_nodes by auto. unfold chain. cbn [app length map]. rewrite map_length, seq_length. reflexivity. }
    rewrite WF. set (y1 := world_changes (chain (S k)) y). unfold loop_turn. change (ds_over y1) with (ds_over y). rewrite C6.
    cbn [option_map read_input_event sl_monitor sl_client quiet]. change (ds_grab y1) with (ds_grab y). change (ds_pending y1) with (gs_monitor (ds_grab y)).
    rewrite C5. cbn [andb]. unfold update_devices. cbn [put_grab ds_grab put_changed gs_changed world_may_change].
    match goal with |- context [update_scan _ _ ?w ?g] => set (g0 := g); set (w0 := w) end.
    assert (G1 : gs_devices g0 = map (fun n => opened n) (chain k)) by exact C2.
    assert (SG : sound g0).
    { constructor; rewrite ?G1.
      - intros d Hd. apply in_map_iff in Hd. destruct Hd as (n & <- & _). reflexivity.
      - rewrite map_map. apply chain_proper.
      - unfold devs. rewrite map_map. apply chain_proper.
      - intro dev. unfold devs. rewrite map_map. apply C8. }
    assert (KN : keeps_numbers (chain (S k)) (open_nodes g0)).
    { intros n m Hn Hm. unfold open_nodes in Hm. rewrite G1, map_map in Hm. cbn [gd_node] in Hm. rewrite map_id in Hm.
      apply in_chain in Hn, Hm. destruct Hn as [->|(i & _ & ->)], Hm as [->|(j & _ & ->)]; cbn [n_event n_dev chained long_mouse]; lia. }
    pose proof (update_scan_devices no_regex released (chain (S k)) g0 (proj1 (chain_proper (S k))) (so_events _ SG)) as (D1 & D2 & (S1 & S2 & S3 & S4)). cbn zeta in *.
    pose proof (update_sound no_regex released (chain (S k)) g0 SG (chain_proper (S k)) KN) as SG'. change w0 with (chain (S k)).
    change (gs_filters g0) with (gs_filters (ds_grab y)) in D1, S2. change (gs_mice g0) with (gs_mice (ds_grab y)) in D1, S1. change (gs_monitor g0) with true in S3.
    rewrite C3 in D1, S2. rewrite C4 in D1, S1. rewrite G1, chain_updated in D1.
    set (g1 := update_scan no_regex released (chain (S k)) g0) in *. clearbody g1. clear g0 SG KN G1 S4 w0.
    match goal with |- chained_up _ (devices_updated fine ?x) => set (z := x) end.
    unfold devices_updated. pose proof (update_forward_ok fine (map gx_ext (gs_descs (ds_grab z))) (ds_virtual z) (fun _ => eq_refl)) as FO.
    destruct (update_forward_devices fine (map gx_ext (gs_descs (ds_grab z))) (ds_virtual z)) as [v ok]. cbn [snd] in FO. subst ok.
    constructor; cbn [ds_world ds_grab ds_over ds_server z put_grab put_grab_begin world_changes y1 put_changed gs_devices gs_filters gs_mice gs_monitor gs_descs gs_log]; auto.
    + rewrite D2, D1. reflexivity.
    + intro dev. pose proof (so_logged _ SG' dev) as L. unfold devs in L. rewrite D1, map_map in L. exact L.
Qed.

Theorem C81_cascade_refuted : (length long_name <= 255)%nat /\ is_mouse long_mouse /\
  ds_world (cascade 0) = [long_mouse] /\
  forall k, ds_over (cascade k) = false /\
    ds_world (cascade (S k)) = with_forward [long_mouse] (cascade k) /\
    length (ds_server (cascade k)) = S k /\
    forall i, (i < k)%nat -> is_grabbed (gs_log (ds_grab (cascade k))) (100 + i) = true.
Proof.
  split; [vm_compute; lia|]. split; [left; reflexivity|]. split; [vm_compute; reflexivity|]. intro k.
  destruct (cascade_chained k) as [C1 C2 C3 C4 C5 C6 C7 C8]. split; [exact C6|]. split; [|split].
  - rewrite (cu_world _ _ (cascade_chained (S k))). unfold with_forward. rewrite C7, chain_nodes by auto.
    unfold chain. cbn [app length map]. rewrite map_length, seq_length. reflexivity.
  - rewrite C7, !map_length. unfold chain. cbn [length]. now rewrite map_length, seq_length.
  - intros i Hi. apply C8. unfold chain. cbn [map]. right. rewrite map_map. apply in_map_iff. exists i. split; [reflexivity|]. apply List.in_seq. lia.
Qed.
Print Assumptions C81_cascade_refuted.

(** ** C82 Every event is attributed to the device it came from *)

(** Events which are passed on as they are: neither keys nor wheels, nor the axes which are
    scaled *)
Definition motion (e : ievent) : Prop :=
  ie_type e <> 1%N /\ (ie_type e = 2%N -> ie_code e <> 6%N /\ ie_code e <> 8%N /\ ie_code e <> 11%N /\ ie_code e <> 12%N) /\
  (ie_type e = 3%N -> ie_code e <> 0x20%N /\ ie_code e <> 0x28%N).

Lemma key_read caps e : ie_type e = 1%N ->
  read_conversion caps e = Some e /\ to_key_event e = Some (ev0 (ie_code e) (if ie_value e =? 0 then Up else Down)).
Proof. intro T1. unfold read_conversion, to_key_event. rewrite T1. cbn. auto. Qed.
Lemma motion_read caps e : motion e -> read_conversion caps e = Some e /\ to_key_event e = None.
Proof.
  intros (M1 & M2 & M3). unfold read_conversion, to_key_event.
  change EV_KEY with 1%N. change EV_ABS with 3%N. change EV_REL with 2%N. change ABS_VOLUME with 0x20%N. change ABS_MISC with 0x28%N.
  change REL_WHEEL with 8%N. change REL_HWHEEL with 6%N. change REL_WHEEL_HI_RES with 11%N. change REL_HWHEEL_HI_RES with 12%N.
  apply N.eqb_neq in M1. rewrite M1. destruct (N.eqb_spec (ie_type e) 3) as [Q|Q].
  - destruct (M3 Q) as [A B]. apply N.eqb_neq in A, B. rewrite A, B, Q. auto.
  - destruct (N.eqb_spec (ie_type e) 2) as [Q'|Q']; [|auto]. destruct (M2 Q') as (A & B & C & D).
    apply N.eqb_neq in A, B, C, D. rewrite A, B, C, D. auto.
Qed.

(** When a device has something to read, the server is told its index, under which it knows
    the device by its name and id, which decide about the contexts with device filters.
    Motions of a mouse or a device with axes leave by the virtual device made for it. *)
Theorem C82_indices_partial : forall search held_keys write_ok create_ok w mice filters during l r r_during n e,
  proper w -> (forall v, during = Some v -> proper v) ->
  let y0 := session search held_keys true create_ok w mice filters during in
  orderly search held_keys true write_ok create_ok l y0 ->
  let y := drun search held_keys true write_ok create_ok l y0 in
  ds_pending y = false -> ds_over y = false ->
  In n (ds_world y) -> is_grabbed (gs_log (ds_grab y)) (n_dev n) = true ->
  sl_client r = false -> (forall dev, sl_read r dev = if (dev =? n_dev n)%nat then Some (Some e) else None) ->
  let y' := drun search held_keys true write_ok create_ok (l ++ [DTurn (Some r) r_during]) y0 in
  exists i x, nth_error (ds_server y) i = Some x /\ gx_name x = n_name n /\ gx_id x = n_link n /\
    (ie_type e = 1%N -> ie_code e <> 0%N ->
       ds_reads y' = ds_reads y ++ [DTranslate i (ev0 (ie_code e) (if ie_value e =? 0 then Up else Down))]) /\
    (motion e ->
       ds_reads y' = ds_reads y ++ [DForward i e] /\
       exists ok d, vs_log (ds_virtual y') = vs_log (ds_virtual y) ++ [WEvent d e ok] /\
         (is_mouse n \/ has_axes n -> d = VForward (n_event n)) /\
         (~ is_mouse n -> ~ has_axes n -> d = VKeyboard)).
Proof.
  intros search hk wo co w mice filters during l r rd n e P Du y0 O y Pe Ov Hn Gr Rc Rd y'.
  pose proof (settled_session search hk co w mice filters during P Du) as SS0.
  pose proof (settled_run search hk wo co mice filters l y0 SS0 O) as S0. fold y in S0.
  pose proof (described_run search hk wo co mice filters l y0 SS0 O (described_session search hk co w mice filters during)) as D0. fold y in D0.
  pose proof (aligned_run search hk true wo co l y0 (aligned_session search hk true co w mice filters during)) as A0. fold y in A0.
  specialize (D0 Pe). destruct (A0 Ov) as (B1 & B2 & B3). clear A0.
  unfold y', drun. rewrite fold_left_app. cbn [fold_left dstep_run]. fold (drun search hk true wo co l y0). fold y. clearbody y. clear y' O SS0 y0.
  destruct S0 as [[A1 A2 A3 A4] Em Ef Mo P' K KP Ch Fi]. apply A4 in Gr.
  destruct (read_one (gs_devices (ds_grab y)) 0 (n_dev n) e (Ready false (sl_client r) (sl_read r)) Rd Gr) as (i & d & N1 & N2 & R).
  cbn [Nat.add] in R.
  assert (Hd : In (gd_node d) (open_nodes (ds_grab y))) by (apply in_map; eapply nth_error_In; exact N1).
  destruct (KP n (gd_node d) Hn Hd (eq_sym N2)) as (Q1 & Q2 & Q3 & Q4).
  assert (EV : n_event n = gd_event d).
  { rewrite A1 by (eapply nth_error_In; exact N1). apply (K n (gd_node d) Hn Hd). now symmetry. }
  assert (AL : alive (ds_world y) (gd_node d) = true).
  { apply existsb_exists. exists n. split; [exact Hn|]. apply Nat.eqb_eq. now symmetry. }
  assert (LK : get_device_input_id (ds_world y) (gd_event d) = n_link n).
  { unfold get_device_input_id. rewrite <- EV. destruct (find (fun m => n_event m =? n_event n) (ds_world y)) as [m|] eqn:F.
    - apply find_some in F. destruct F as [F1 F2]. apply Z.eqb_eq in F2. f_equal. eapply (nodup_same n_event); [apply P'|exact F1|exact Hn|exact F2].
    - eapply find_none in F; [|exact Hn]. rewrite Z.eqb_refl in F. discriminate F. }
  exists i, (describe (ds_world y) d).
  assert (SN : nth_error (ds_server y) i = Some (describe (ds_world y) d)).
  { rewrite B1, D0. now apply map_nth_error. }
  split; [exact SN|]. unfold describe at 1 2. cbn [gx_name gx_id]. rewrite AL, LK. split; [now symmetry|]. split; [reflexivity|].
  unfold loop_turn. rewrite Ov. cbn [option_map read_input_event sl_monitor sl_client]. rewrite Pe, andb_false_r, Rc.
  rewrite Rc in R. split.
  - intros T1 C0. destruct (key_read (gd_caps d) e T1) as [X1 X2]. rewrite X1 in R. rewrite R, X2, put_grab_same. cbn [ek ev0].
    apply N.eqb_neq in C0. change (ie_code e =? k_none)%N with (ie_code e =? 0)%N. rewrite C0. unfold update_devices.
    cbn [put_read ds_grab]. rewrite Ch. reflexivity.
  - intros M. destruct (motion_read (gd_caps d) e M) as [X1 X2]. rewrite X1 in R. rewrite R, X2, put_grab_same. cbn [put_read ds_reads ds_virtual].
    split; [reflexivity|].
    assert (VN : nth_error (vs_devices (ds_virtual y)) i = Some (vid_of (gx_ext (describe (ds_world y) d)))).
    { rewrite B2. do 2 apply map_nth_error. exact SN. }
    unfold forward_event. rewrite VN. set (v := vid_of _) in *. exists (wo (length (vs_log (ds_virtual y)))), v.
    split; [destruct (vd_mouse _); reflexivity|].
    assert (MA : has_mouse_axes (gd_node d) = has_mouse_axes n) by (unfold has_mouse_axes; now rewrite Q3).
    assert (AA : has_uncommon_abs_axes (gd_node d) = has_uncommon_abs_axes n) by (unfold has_uncommon_abs_axes; now rewrite Q4).
    unfold v, describe. cbn [gx_ext]. rewrite AL, MA, AA. cbn [andb]. split.
    + intros [H|H]; [apply mouse_dec in H|apply axes_dec in H]; rewrite H, ?orb_true_r; cbn [orb vid_of d_id]; now rewrite EV.
    + intros H1 H2. destruct (has_mouse_axes n) eqn:E1; [apply mouse_dec in E1; contradiction|].
      destruct (has_uncommon_abs_axes n) eqn:E2; [apply axes_dec in E2; contradiction|]. reflexivity.
Qed.
Print Assumptions C82_indices_partial.

(** The keyboard at index 0 is unplugged, the indices of the others change with it. *)
Example C82_case :
  let w0 := [a_keyboard 0 0; a_keyboard 4 5; a_mouse 1 1] in
  let w1 := [a_keyboard 4 5; a_mouse 1 1] in
  let y0 := begin w0 true [] in
  let moved := reads_from 1 (IE 2 0 5) in
  let typed := reads_from 5 (IE 1 30 1) in
  let l := [DTurn (Some typed) None; DTurn (Some moved) None; DWorld w1; DTurn (Some quiet) None] in
  let y := continue (l ++ [DTurn (Some moved) None; DTurn (Some typed) None]) y0 in
  orderly no_regex released true fine fine l y0 /\ motion (IE 2 0 5) /\ ds_pending (continue l y0) = false /\
  ds_reads y = [DTranslate 1 (ev0 30%N Down); DForward 2 (IE 2 0 5); DForward 1 (IE 2 0 5); DTranslate 0 (ev0 30%N Down)] /\
  List.filter (fun x => match x with WEvent _ _ _ => true | _ => false end) (vs_log (ds_virtual y)) =
    [WEvent (VForward 1) (IE 2 0 5) true; WEvent (VForward 1) (IE 2 0 5) true].
Proof.
  cbn zeta. split; [apply orderlyb_true; vm_compute; reflexivity|]. split; [|vm_compute; auto].
  repeat split; cbn; intros; discriminate.
Qed.

(** ** C83 Devices are grabbed and released while none of their keys is held *)

(** So that the release of a key reaches those who have seen the press.  Unless the keys
    cannot be asked for, or some are held for a thousand times 5 ms. *)
Theorem C83_released_keys_partial : forall search held_keys monitor_ok write_ok create_ok w mice filters during l dev p,
  let y := drun search held_keys monitor_ok write_ok create_ok l (session search held_keys monitor_ok create_ok w mice filters during) in
  In (GGrab dev p) (gs_log (ds_grab y)) \/ In (GUngrab dev p) (gs_log (ds_grab y)) \/
  In (GUngrab dev p) (gs_log (ungrab_all held_keys (ds_grab y))) ->
  held_keys p dev = Some [] \/ held_keys p dev = None \/
  (1000 <= p)%nat /\ forall q, (p - 1000 <= q < p)%nat -> exists k ks, held_keys q dev = Some (k :: ks).
Proof.
  intros search hk mo wo co w mice filters during l dev p y H.
  assert (SC : forall (v : list node) s, True -> patient hk (gs_log s) -> patient hk (gs_log (update_scan search hk v s))) by (intros v s _; apply patient_update).
  assert (L1 : logs (patient hk) (fun _ => True) (session search hk mo co w mice filters during)).
  { apply (logs_session search hk mo co (patient hk) (fun _ => True) SC); auto. intros d q [[]|[]]. }
  assert (F : Forall (step_sees (fun _ => True)) l) by (apply Forall_forall; intros [r [v|]|e|v|v] _; exact Logic.I).
  destruct (logs_run search hk mo wo co (patient hk) (fun _ => True) SC l _ L1 F) as [_ R]. fold y in R.
  assert (U : patient hk (gs_log (ungrab_all hk (ds_grab y)))).
  { unfold ungrab_all. match goal with |- patient hk (gs_log (put_gdevices [] ?s)) => change (patient hk (gs_log s)) end.
    generalize (gs_devices (ds_grab y)). intro ds. revert R. generalize (ds_grab y). induction ds as [|d ds IH]; intros g R; [exact R|].
    cbn [fold_left]. apply IH. now apply patient_ungrab. }
  destruct H as [H|[H|H]]; [apply (R dev p); now left|apply (R dev p); now right|apply (U dev p); now right].
Qed.
Print Assumptions C83_released_keys_partial.

(** Return is still held when the server is started from a shell: the keyboard is grabbed
    15 ms later. *)
Definition return_held (q dev : nat) : option (list N) := if (dev =? 0)%nat && (q <? 3)%nat then Some [28%N] else Some [].
Example C83_case :
  gs_log (ds_grab (session no_regex return_held true fine [a_keyboard 0 0] false [] None)) = [GGrab 0 3].
Proof. vm_compute. reflexivity. Qed.

(** Missing: a key held for more than five seconds does not keep the server from grabbing
    the keyboard; its release is not seen by those who have seen it pressed. *)
Theorem C83_held_refuted : exists held_keys p,
  In (GGrab 0 p) (gs_log (ds_grab (session no_regex held_keys true fine [a_keyboard 0 0] false [] None))) /\
  held_keys p 0%nat = Some [28%N].
Proof.
  exists (fun _ _ => Some [28%N]), 1000%nat. split; [|reflexivity].
  assert (Q : gs_log (ds_grab (session no_regex (fun _ _ => Some [28%N]) true fine [a_keyboard 0 0] false [] None)) = [GGrab 0 1000]) by (vm_compute; reflexivity).
  rewrite Q. now left.
Qed.
Print Assumptions C83_held_refuted.
