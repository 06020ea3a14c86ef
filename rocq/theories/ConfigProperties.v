(** Properties of configuration files which load (C39-C41, C50, C64-C66). *)
From Coq Require Import String Ascii List Arith NArith ZArith Bool Lia.
From Verif Require Import Base Key KeyNames Text Match ParseSeq Config Replay Stage StageSpec StageShape StageSafe StageRoute
  MultiStage MultiSpec MultiProofs StageProperties MultiProperties RouteProperties
  ConfigShape ConfigSpec ConfigProofs ConfigLogical ConfigParse ConfigForward ConfigLoad.
From Verif Require ParseSpec UntouchedSpec UntouchedProperties.
Import ListNotations.
Local Open Scope N_scope.

Section Properties.
Variable typer : option (key * bool) -> text -> list stroke.
Variable regex_ok : text -> bool -> bool.
Variable read_file : text -> option (list text).
Variable current_system : text.

(** A file is read to [c]; [cfg] is the resulting configuration. *)
Notation parse t := (parse_file typer regex_ok read_file current_system 10 (split_lines t []) c_init).
Definition loads (t : text) (c : cstate) (cfg : config) : Prop := parse t = POk c /\ finish_config c = POk cfg.
(** Keys are typed with keys which exist. *)
Definition types_keys : Prop := forall c t, Forall (fun x => st_key x <> 0 /\ st_value x = 0) (typer c t).

(** ** C39 Context chains stay within their stage *)
Theorem C39_chained : forall t cfg, parse_config typer regex_ok read_file current_system t = POk cfg ->
  chained (cfg_contexts cfg).
Proof. exact (loaded_chained typer regex_ok read_file current_system). Qed.

(** The server finds the same stages. *)
Theorem C39_stages : forall t cfg, parse_config typer regex_ok read_file current_system t = POk cfg ->
  split_stages (map server_context (cfg_contexts cfg)) [] = map (map server_block) (cut (cfg_contexts cfg)).
Proof.
  intros t cfg H. apply split_cut. apply parse_config_parts in H. destruct H as [c [H F]].
  apply parsed_weak in H. apply finish_good with (W := False) in F; [|exact H]. apply F.
Qed.

(** ** C40 Removing contexts does not change the meaning *)
Theorem C40_same_meaning : forall met l, chained l -> l <> [] ->
  Forall (fun x => cc_stage x = true -> cc_sys x = true) l ->
  meaning met l = meaning met (optimize_contexts l) \/
  meaning met l = [] :: meaning met (optimize_contexts l).
Proof. intros met l C N S. apply optimize_meaning; auto. now apply chained_chain. Qed.
Theorem C40_loaded : forall met t c, parse t = POk c ->
  let l := map (prepend_forward (c_forward c)) (c_contexts c) in
  meaning met l = meaning met (optimize_contexts l) \/
  meaning met l = [] :: meaning met (optimize_contexts l).
Proof. exact (loaded_meaning typer regex_ok read_file current_system). Qed.

(** ** C41 Logical keys mean either physical key *)

(** Not for `modifier != ..` with a logical key (see C41_refuted). *)
Theorem C41_written_out_partial : forall other down t c, types_keys -> parse t = POk c -> bounded c ->
  logical_down (c_logical c) down ->
  (forall x k, In x (c_contexts c) -> In k (c_logical c) -> cc_inv x = true -> held_in (lk_both k) (cc_mods x) = false) ->
  let l := optimize_contexts (map (prepend_forward (c_forward c)) (c_contexts c)) in
  meaning (met_with other down) (fold_left replace_logical_key (rev (c_logical c)) l) =
  map (map (fun m => fold_left (fun m k => written_maps k m) (rev (c_logical c)) m)) (meaning (met_with other down) l).
Proof.
  intros other down t c Ht H B D Hx. cbn zeta. eapply loaded_logical; eauto.
  intros k Hk. apply Forall_forall. intros x Hi E. now apply Hx.
Qed.
Theorem C41_none_left : forall t c cfg, types_keys -> loads t c cfg -> bounded c ->
  forall x e k, In x (cfg_contexts cfg) -> In e (events_of x) -> In k (c_logical c) -> ek e <> lk_both k.
Proof. intros t c cfg Ht [H F] B. eapply loaded_no_logical; eauto. Qed.

(** ** C50 Forwarded modifiers stay available *)

(** Each stage begins with an unconditional block forwarding them. *)
Theorem C50_forwarded : forall t c cfg, types_keys -> loads t c cfg -> bounded c -> c_forward c <> [] ->
  forall s, In s (cut (cfg_contexts cfg)) -> exists x r rest, s = x :: r /\
    attrs_of x = (no_filter, no_filter, no_filter, no_filter, no_filter, [], false) /\
    cc_sys x = true /\ cc_fall x = false /\
    mappings x = map forwarding (physical (rev (c_logical c)) (c_forward c)) ++ rest.
Proof.
  intros t c cfg Ht [H F] B Hf s Hs. destruct (loaded_forward _ _ _ _ Ht t c cfg H B F Hf s Hs) as [x [r [rest [A [Bm [C [D E]]]]]]].
  exists x, r, rest. unfold conds, no_conds in C. injection C as C1 C2 C3 C4 C5 C6 C7. unfold attrs_of.
  rewrite C1, C2, C3, C4, C5, C6, Bm. auto.
Qed.
(** An output of a mapping whose input presses a forwarded modifier mentions it (only
    for those which the list names directly or as one of two keys, see C50_refuted). *)
Theorem C50_suppressed_partial : forall c cfg, finish_config c = POk cfg ->
  forall x i k, In x (cfg_contexts cfg) -> In i (cc_inputs x) -> In k (c_forward c) -> In (ev0 k Down) (in_seq i) ->
  (forall o, target_of (cc_outputs x) i = TOut o -> (Z.to_nat (in_out i) < length (cc_outputs x))%nat -> mentions k o) /\
  (forall n y m, target_of (cc_outputs x) i = TCmd n ->
     In y (cfg_contexts cfg) -> In m (cc_commands y) -> cm_idx m = n -> mentions k (cm_out m)).
Proof.
  intros c cfg F x i k Hx Hi Hk Hd. destruct (loaded_suppressed c cfg F x i k Hx Hi Hk Hd) as [A B].
  unfold target_of. destruct (0 <=? in_out i)%Z eqn:Z0.
  - apply Z.leb_le in Z0. split; [|discriminate]. intros o E L. injection E as <-. apply A; [exact Z0|]. now apply nth_error_nth'.
  - apply Z.leb_gt in Z0. split; [discriminate|]. intros n y m E Hy Hm Em. injection E as <-. eapply B; eauto.
Qed.
(** Nothing else about an output is changed. *)
Theorem C50_only_suppressed : forall fwd l m x, nth_error l m = Some x ->
  exists y, nth_error (suppress_forwarded fwd l) m = Some y /\ frame_of y = frame_of x /\
    (forall o a, nth_error (cc_outputs x) o = Some a -> exists b, nth_error (cc_outputs y) o = Some b /\
       suppressed (fun k => In k fwd /\ presses x (Z.of_nat o) k) a b) /\
    Forall2 (fun c c' => cm_idx c' = cm_idx c /\
       suppressed (fun k => (cm_idx c < 0)%Z /\ In k fwd /\ exists z, In z l /\ presses z (cm_idx c) k) (cm_out c) (cm_out c'))
      (cc_commands x) (cc_commands y).
Proof. intros fwd l. apply (suppress_spec fwd l). Qed.

(** ** C64 Every file which loads is safe to run *)
Theorem C64_fit : forall t c cfg, types_keys -> loads t c cfg -> bounded c ->
  let cs := split_stages (map server_context (cfg_contexts cfg)) [] in
  cs <> [] /\ Forall wf_stage_config cs /\
  Forall (Forall (fun x => NoDup (map cm_idx (cx_commands x)))) cs.
Proof. intros t c cfg Ht [H F] B. eapply loaded_wf; eauto. Qed.
Theorem C64_no_undefined_behaviour : forall t c cfg l, types_keys -> loads t c cfg -> bounded c ->
  Forall wf_mcall l -> wheels_ok (map wheel_call l) ->
  Forall (fun st => s_ub (snd st) = false /\ s_oof (snd st) = false)
    (m_stages (fst (mrun l (new_multi_stage (split_stages (map server_context (cfg_contexts cfg)) []))))).
Proof.
  intros t c cfg l Ht H B Hl Hw. destruct (C64_fit t c cfg Ht H B) as [_ [A _]]. now apply C10_multi_stage.
Qed.
Theorem C64_output_shape : forall t c cfg l, types_keys -> loads t c cfg -> bounded c ->
  Forall wf_mcall l -> wheels_ok (map wheel_call l) ->
  Forall (fun e => ek e <> k_none /\ (es e = Down \/ es e = Up \/ ek e = k_timeout) /\
                   (ev e = 0 \/ ek e = k_timeout \/ (is_mouse_wheel (ek e) = true /\ es e = Down)))
    (snd (mrun l (new_multi_stage (split_stages (map server_context (cfg_contexts cfg)) [])))).
Proof.
  intros t c cfg l Ht H B Hl Hw. destruct (C64_fit t c cfg Ht H B) as [N [A _]]. now apply C52_output_shape.
Qed.

(** ** C37 Inputs as the server gets them *)
(** Also after the logical keys were replaced and the modifiers to forward were added,
    inputs contain a press, the states of inputs only, and ? only in front.  The exception
    is what is left of ? ContextActive (see C37_refuted). *)
Theorem C37_configuration_partial : forall t c cfg, types_keys -> loads t c cfg -> bounded c ->
  Forall (fun cs => forall x i, In x cs -> In i (cx_inputs x) ->
      (exists m r, in_seq i = m ++ r /\ (m = [] \/ m = [ev0 k_none NoMightMatch]) /\
         Forall ParseSpec.input_state r /\ exists e, In e r /\ es e = Down) \/
      in_seq i = [ev0 k_none NoMightMatch])
    (split_stages (map server_context (cfg_contexts cfg)) []).
Proof. intros t c cfg Ht [H F] B. exact (loaded_fit _ _ _ _ Ht t c cfg H B F). Qed.

(** ** C72 Unmentioned keys, for every file *)
Theorem C72_file_partial : forall t c cfg, types_keys -> loads t c cfg -> bounded c ->
  Forall (fun cs => UntouchedSpec.no_output_on_release cs -> UntouchedProperties.passes_through cs)
    (split_stages (map server_context (cfg_contexts cfg)) []).
Proof.
  intros t c cfg Ht L B. eapply Forall_impl; [|exact (C37_configuration_partial t c cfg Ht L B)].
  cbn beta. intros cs Hi Ho. apply UntouchedProperties.C72_passes_through_partial; [|exact Ho].
  intros x i Hx Hin. destruct (Hi x i Hx Hin) as [[m [r [E [Hm [Hs _]]]]]|E].
  - assert (F : Forall (fun e => es e <> NoMightMatch) r).
    { eapply Forall_impl; [|exact Hs]. intros e He. unfold ParseSpec.input_state in He. intros Q. rewrite Q in He.
      destruct He as [X|[X|[X|[X|[X|[X _]]]]]]; discriminate X. }
    destruct Hm as [->| ->]; [left; now rewrite E|]. right. now exists r.
  - right. exists []. split; [exact E|constructor].
Qed.
End Properties.
Print Assumptions C37_configuration_partial.
Print Assumptions C72_file_partial.
Print Assumptions C39_chained.
Print Assumptions C39_stages.
Print Assumptions C40_same_meaning.
Print Assumptions C40_loaded.
Print Assumptions C41_written_out_partial.
Print Assumptions C41_none_left.
Print Assumptions C50_forwarded.
Print Assumptions C50_suppressed_partial.
Print Assumptions C50_only_suppressed.
Print Assumptions C64_fit.
Print Assumptions C64_no_undefined_behaviour.
Print Assumptions C64_output_shape.

(** * Cases *)

Notation "'loaded' t" := (loads generic_typer parens_ok (fun _ => None) (T "Linux") (T t)) (at level 10).
Definition state_of (t : string) : cstate :=
  match parse_file generic_typer parens_ok (fun _ => None) (T "Linux") 10 (split_lines (T t) []) c_init with
  | POk c => c | _ => c_init end.
Definition config_of (t : string) : config :=
  match finish_config (state_of t) with POk c => c | _ => Config [] [] [] [] [] [] [] end.

(** The replacement for the keyboard layout used in the tests types existing keys. *)
Example generic_types_keys : types_keys generic_typer.
Proof.
  intros c t. unfold generic_typer. apply Forall_flat_map. apply Forall_forall. intros a _.
  assert (K : forallb (fun x => negb (st_key x =? 0) && (st_value x =? 0)) (type_char a) = true)
    by (destruct a as [[] [] [] [] [] [] [] []]; vm_compute; reflexivity).
  apply Forall_forall. intros x Hx. rewrite forallb_forall in K. specialize (K x Hx). apply andb_prop in K.
  destruct K as [K1 K2]. apply negb_true_iff, N.eqb_neq in K1. apply N.eqb_eq in K2. auto.
Qed.

Lemma hd_In : forall (A : Type) (d : A) l, l <> [] -> In (hd d l) l.
Proof. intros A d [|x l] H; [easy|now left]. Qed.

Definition blocks : string := (lines
  ["A >> B"; "[title = ""a""]"; "[title = ""b""]"; "Shift{A} >> Shift{X} Y"; "Control{B} >> foo"; "foo >> Z";
   "[system = ""Windows""]"; "C >> D"; "[title = ""c""]"; "[stage]"; "[modifier = ""Shift""]"; "B >> C"; "foo >> K"])%string.
Example blocks_load : loaded blocks (state_of blocks) (config_of blocks) /\ bounded (state_of blocks) /\
  length (c_contexts (state_of blocks)) = 7%nat /\
  map (fun x => (cc_fall x, cc_stage x)) (cfg_contexts (config_of blocks)) =
    [(false, true); (true, false); (false, false); (false, true); (true, false); (false, false)] /\
  map (fun s => length s) (cut (cfg_contexts (config_of blocks))) = [3%nat; 3%nat].
Proof. split; [split; vm_compute; reflexivity|]. split; [vm_compute; split; repeat constructor; discriminate|].
  vm_compute. auto. Qed.

Definition empty_text (f : filter) : bool := match f_string f with [] => true | _ => false end.
(** Window title `b`; the right Shift is held. *)
Definition title_b (c t p d i : filter) : bool := empty_text t || text_eqb (f_string t) (T "b").
Definition right_shift (k : key) : bool := (k =? ShiftRight) || (k =? first_logical).
Example C40_case :
  let l := map (prepend_forward []) (c_contexts (state_of blocks)) in
  length l = 7%nat /\ length (optimize_contexts l) = 5%nat /\
  map (fun s => map (fun m => length (fst m)) s) (meaning (met_with title_b right_shift) l) = [[1; 2]; [1]]%nat.
Proof. vm_compute. auto. Qed.
(** A first stage without mappings disappears. *)
Example C40_case_empty :
  let l := c_contexts (state_of (lines ["[stage]"; "A >> B"])%string) in
  map (@length _) (meaning (fun _ => true) l) = [0; 1]%nat /\
  map (@length _) (meaning (fun _ => true) (optimize_contexts l)) = [1]%nat.
Proof. vm_compute. auto. Qed.

Lemma shift_down : logical_down (c_logical (state_of blocks)) right_shift.
Proof.
  intros k Hk. vm_compute in Hk. repeat (destruct Hk as [<-|Hk]; [vm_compute; reflexivity|]). contradiction.
Qed.
Example C41_case :
  logical_down (c_logical (state_of blocks)) right_shift /\
  forallb (fun x => negb (cc_inv x)) (c_contexts (state_of blocks)) = true /\
  let l := fold_left replace_logical_key (rev (c_logical (state_of blocks)))
             (optimize_contexts (map (prepend_forward []) (c_contexts (state_of blocks)))) in
  map (fun s => map (fun m => length (fst m)) s) (meaning (met_with title_b right_shift) l) = [[1; 4]; [1]]%nat /\
  existsb (fun m => match m with ([e; _; _; _], TOut (o :: _)) => (ek e =? ShiftRight) && (ek o =? ShiftRight) | _ => false end)
    (concat (map fst (concat (meaning (met_with title_b right_shift) l)))) = true.
Proof. split; [exact shift_down|]. vm_compute. auto. Qed.

(** `modifier != "Shift"` should mean that neither key is held; each of its two copies
    is negated, so it is met unless both are held. *)
Definition inverted : string := (lines ["[modifier != ""Shift""]"; "A >> B"])%string.
Definition left_shift (k : key) : bool := (k =? ShiftLeft) || (k =? first_logical).
Theorem C41_refuted : exists t c cfg, loaded t c cfg /\ bounded c /\
  (exists other down, logical_down (c_logical c) down /\
   let l := optimize_contexts (map (prepend_forward (c_forward c)) (c_contexts c)) in
   meaning (met_with other down) (fold_left replace_logical_key (rev (c_logical c)) l) <>
   map (map (fun m => fold_left (fun m k => written_maps k m) (rev (c_logical c)) m)) (meaning (met_with other down) l)) /\
  (** with the left Shift held the mapping applies *)
  let cs := split_stages (map server_context (cfg_contexts cfg)) [] in
  fmt (snd (mrun (multi_calls cs "+ShiftLeft +A") (new_multi_stage cs))) = "+ShiftLeft +B"%string.
Proof.
  exists inverted, (state_of inverted), (config_of inverted).
  split; [split; vm_compute; reflexivity|]. split; [vm_compute; split; repeat constructor; discriminate|].
  split; [|vm_compute; reflexivity].
  exists (fun _ _ _ _ _ => true), left_shift. split.
  - intros k Hk. vm_compute in Hk. repeat (destruct Hk as [<-|Hk]; [vm_compute; reflexivity|]). contradiction.
  - cbn zeta. intros H. apply (f_equal (fun m => map (@length maps) m)) in H. vm_compute in H. discriminate H.
Qed.
Print Assumptions C41_refuted.

Definition forwards : string := (lines
  ["@forward-modifiers Shift AltLeft"; "Shift{A} >> B"; "AltLeft{C} >> cmd"; "cmd >> X"; "[stage]"; "[title = ""a""]"; "B >> Y"; "cmd >> Z"])%string.
Example C50_case :
  loaded forwards (state_of forwards) (config_of forwards) /\ bounded (state_of forwards) /\
  c_forward (state_of forwards) = [ShiftLeft; ShiftRight; AltLeft] /\
  physical (rev (c_logical (state_of forwards))) (c_forward (state_of forwards)) = [ShiftLeft; ShiftRight; AltLeft] /\
  length (cut (cfg_contexts (config_of forwards))) = 2%nat /\
  map (fun x => length (cc_inputs x)) (cfg_contexts (config_of forwards)) = [6; 3; 1]%nat /\
  map (fun x => map (fun m => fmt (cm_out m)) (cc_commands x)) (cfg_contexts (config_of forwards)) =
    [["!AltLeft +X"]; []; ["!AltLeft +Z"]]%string /\
  existsb (fun m => match snd m with TOut o => String.eqb (fmt o) "!ShiftRight !ShiftLeft +B" | _ => false end)
    (concat (map mappings (cfg_contexts (config_of forwards)))) = true.
Proof. split; [split; vm_compute; reflexivity|]. split; [vm_compute; split; repeat constructor; discriminate|].
  vm_compute. repeat split. Qed.

(** A logical modifier of three keys: two of them are forwarded but not suppressed. *)
Definition three_keys : string := (lines
  ["Mod2 = ShiftLeft | ControlLeft | AltLeft"; "@forward-modifiers Mod2"; "Mod2{A} >> B"])%string.
Theorem C50_refuted : exists t c cfg, loaded t c cfg /\ bounded c /\
  (exists k, In k (physical (rev (c_logical c)) (c_forward c)) /\
   exists x i, In x (cfg_contexts cfg) /\ In i (cc_inputs x) /\ In (ev0 k Down) (in_seq i) /\
   match target_of (cc_outputs x) i with TOut o => ~ mentions k o | TCmd _ => False end) /\
  (** Shift stays held while B is pressed, unlike the third key *)
  let cs := split_stages (map server_context (cfg_contexts cfg)) [] in
  fmt (snd (mrun (multi_calls cs "+ShiftLeft +A") (new_multi_stage cs))) = "+ShiftLeft +B"%string /\
  fmt (snd (mrun (multi_calls cs "+AltLeft +A") (new_multi_stage cs))) = "+AltLeft -AltLeft +B"%string.
Proof.
  exists three_keys, (state_of three_keys), (config_of three_keys).
  split; [split; vm_compute; reflexivity|]. split; [vm_compute; split; repeat constructor; discriminate|].
  split; [|vm_compute; auto].
  exists ShiftLeft. split; [vm_compute; auto|].
  set (x := hd new_cctx (cfg_contexts (config_of three_keys))). exists x.
  set (i := nth 3 (cc_inputs x) (Inp [] 0)). exists i.
  split; [apply hd_In; vm_compute; discriminate|].
  split; [apply nth_In; vm_compute; repeat constructor|].
  split; [vm_compute; auto|]. vm_compute. intros [H|H]; repeat (destruct H as [H|H]; [discriminate H|]); exact H.
Qed.
Print Assumptions C50_refuted.

Example C64_case :
  loaded blocks (state_of blocks) (config_of blocks) /\ bounded (state_of blocks) /\
  let cs := split_stages (map server_context (cfg_contexts (config_of blocks))) [] in
  fmt (snd (mrun (multi_calls cs "+ShiftRight +A") (new_multi_stage cs))) = "+ShiftRight +X -X -ShiftRight +Y -Y"%string.
Proof. split; [apply blocks_load|]. split; [apply blocks_load|]. vm_compute. auto. Qed.

(** A question mark in front of an input with a logical key, and forwarded modifiers: there
    are copies of the inputs, and the key Q, which the file does not mention, passes. *)
Definition questions : string := (lines
  ["@forward-modifiers Shift"; "? Shift{A} >> X"; "!Shift C >> Y"; "[stage]"; "? X X >> Z"])%string.
Example C37_configuration_case :
  loaded questions (state_of questions) (config_of questions) /\ bounded (state_of questions) /\
  let cs := split_stages (map server_context (cfg_contexts (config_of questions))) [] in
  map (fun c => length (flat_map cx_inputs c)) cs = [5; 3]%nat /\
  map (fun c => length (List.filter (fun i => match in_seq i with Ev 0 NoMightMatch _ :: _ => true | _ => false end)
                          (flat_map cx_inputs c))) cs = [2; 1]%nat /\
  Forall UntouchedSpec.no_output_on_release cs /\
  fmt (snd (mrun (multi_calls cs "+Q +A -Q +Q -A -Q") (new_multi_stage cs))) = "+Q +A -Q +Q -A -Q"%string.
Proof.
  split; [split; vm_compute; reflexivity|]. split; [vm_compute; split; repeat constructor; discriminate|].
  split; [vm_compute; reflexivity|]. split; [vm_compute; reflexivity|]. split; [|vm_compute; reflexivity].
  assert (D : forall cs, forallb (fun c => forallb (forallb (fun e => negb (kstate_eqb (es e) OutputOnRelease)))
      (UntouchedSpec.context_outputs c)) cs = true -> UntouchedSpec.no_output_on_release cs).
  { intros cs H c o e Hc Ho He Q. rewrite forallb_forall in H. specialize (H c Hc). rewrite forallb_forall in H.
    specialize (H o Ho). rewrite forallb_forall in H. specialize (H e He). now rewrite Q in H. }
  match goal with |- Forall _ ?x => let y := eval vm_compute in x in change (Forall UntouchedSpec.no_output_on_release y) end.
  repeat (apply Forall_cons; [apply D; vm_compute; reflexivity|]). apply Forall_nil.
Qed.

(** ** C65 Consecutive contexts share the mappings, also for devices *)

(** All headers of a block accept the same devices. *)
Definition same_devices (cs : list context) : Prop :=
  forall i f c d, fallthrough_context cs i = Some f -> nth_error cs i = Some c -> nth_error cs f = Some d -> cx_bits c = cx_bits d.
(** Without different device filters within a block: a mapping is tried for an event
    exactly when one of the headers of its block is enabled and accepts the device. *)
Theorem C65_shared_partial : forall cs l, wf_config cs -> no_timeout_filter cs -> Forall (wf_call cs) l ->
  Forall (fun c => is_validate c = false) l -> same_devices cs ->
  let s := fst (run cs l init_state) in
  forall f c i dev, In (f, c, i) (candidates cs (s_active s) dev) <->
    nth_error cs f = Some c /\ In i (cx_inputs c) /\
    exists h x, In h (s_client s) /\ nth_error cs h = Some x /\ fallthrough_context cs h = Some f /\
      enabled (buffered s) x /\ device_matches_filter x dev = true.
Proof.
  intros cs l Hwf Hnt Hl Hv Hd s f c i dev. rewrite C15_candidates.
  assert (A := C24_active_contexts cs l Hwf Hnt Hl Hv f). cbn zeta in A. fold s in A. rewrite A. unfold activates. clear A.
  assert (Dm : forall x y, cx_bits x = cx_bits y -> device_matches_filter x dev = device_matches_filter y dev).
  { intros x y E. unfold device_matches_filter. now rewrite E. }
  split.
  - intros [[h [x [Hh [Hx [He Hf]]]]] [Hc [Hm Hi]]]. split; [exact Hc|]. split; [exact Hi|]. exists h, x.
    split; [exact Hh|]. split; [exact Hx|]. split; [exact Hf|]. split; [exact He|]. rewrite (Dm x c); [exact Hm|]. now apply (Hd h f).
  - intros [Hc [Hi [h [x [Hh [Hx [Hf [He Hm]]]]]]]]. split; [now exists h, x|]. split; [exact Hc|].
    split; [|exact Hi]. rewrite <- (Dm x c); [exact Hm|]. now apply (Hd h f).
Qed.
Print Assumptions C65_shared_partial.

(** The example of README.md:126-127. *)
Definition devices_text : string := (lines
  ["[device = ""Some Device Name""]  # consecutive blocks share mappings"; "[device = ""Some Other Device""]"; "A >> B"])%string.
Definition codes_of (s : string) : list N := map N_of_ascii (T s).
Definition two_devices : list device_desc := [Dev (codes_of "Some Device Name") []; Dev (codes_of "Some Other Device") []].
Definition mixed_text : string := (lines ["[title = ""foo""]"; "[device = ""Some Other Device""]"; "A >> B"])%string.
Definition from_device (cs : list (list context)) (client : list Z) (dev : Z) : string :=
  fmt (snd (mrun [MDevices two_devices; MContexts client; MInput (one "+A") dev] (new_multi_stage cs))).
Theorem C65_refuted :
  (exists t c cfg, loaded t c cfg /\ length (cfg_contexts cfg) = 2%nat /\
   map (fun x => f_string (cc_dev x)) (cfg_contexts cfg) = [T "Some Device Name"; T "Some Other Device"] /\
   map cc_fall (cfg_contexts cfg) = [true; false] /\
   let cs := split_stages (map server_context (cfg_contexts cfg)) [] in
   from_device cs [0; 1]%Z 1 = "+B"%string /\ from_device cs [0; 1]%Z 0 = "+A"%string) /\
  (** `[title = "foo"]`, `[device = "Some Other Device"]`: in window foo the mapping should be
      active for every device *)
  (let cs := load_multi mixed_text in
   from_device cs [0; 1]%Z 1 = "+B"%string /\ from_device cs [0; 1]%Z 0 = "+A"%string).
Proof.
  split.
  - exists devices_text, (state_of devices_text), (config_of devices_text).
    split; [split; vm_compute; reflexivity|]. split; [vm_compute; reflexivity|].
    split; [vm_compute; reflexivity|].
    vm_compute. auto.
  - vm_compute. auto.
Qed.
Print Assumptions C65_refuted.

(** ** C66 Each mapping runs its own command *)

(** The keys which stand for the first 256 commands are distinct and no logical keys:
    replacing logical keys leaves them alone. *)
Theorem C66_distinct_partial : forall typer regex_ok read_file sys t c, types_keys typer ->
  parse_file typer regex_ok read_file sys 10 (split_lines t []) c_init = POk c -> bounded c ->
  (forall n m, (n < length (c_actions c))%nat -> (m < length (c_actions c))%nat -> action_key n = action_key m -> n = m) /\
  (forall n k s v, (n < length (c_actions c))%nat -> In k (c_logical c) ->
     action_key n <> lk_both k /\
     with_key k (lk_left k) [Ev (action_key n) s v] = [Ev (action_key n) s v]).
Proof.
  intros typer regex_ok read_file sys t c Ht H B. pose proof (parsed_good typer regex_ok read_file sys Ht t c H B) as [_ G _ _ _ _ _].
  specialize (G I). destruct B as [B _].
  assert (K : forall n, (n < length (c_actions c))%nat -> action_key n = first_action + N.of_nat n).
  { intros n Hn. unfold action_key. apply N.mod_small. unfold first_action. lia. }
  split.
  - intros n m Hn Hm E. rewrite !K in E by assumption. lia.
  - intros n k s v Hn Hk. assert (Ne : action_key n <> lk_both k).
    { apply In_nth_error in Hk. destruct Hk as [i Hi]. destruct (proj2 G i k Hi) as [-> _].
      rewrite K by exact Hn. unfold first_action, first_logical. lia. }
    split; [exact Ne|]. apply N.eqb_neq in Ne. unfold with_key, forbid_both, as_key. cbn [flat_map ek app map]. rewrite Ne.
    cbn [andb app map ek]. now rewrite Ne.
Qed.
Print Assumptions C66_distinct_partial.
Definition two_commands : string := lines ["A >> $(ls)"; "B >> $(pwd)"]%string.
Example C66_case : length (c_actions (state_of two_commands)) = 2%nat /\
  loaded two_commands (state_of two_commands) (config_of two_commands) /\ bounded (state_of two_commands).
Proof. split; [vm_compute; reflexivity|]. split; [split; vm_compute; reflexivity|].
  vm_compute; split; repeat constructor; discriminate. Qed.

(** The 257th command: its mapping presses the left Shift key instead. *)
Definition many_commands : string := lines (repeat "A >> $(ls)"%string 257).
Theorem C66_refuted : exists t c cfg, loaded t c cfg /\ length (c_actions c) = 257%nat /\
  exists x i, In x (cfg_contexts cfg) /\ nth_error (cc_inputs x) 256 = Some i /\
    target_of (cc_outputs x) i = TOut [ev0 ShiftLeft Down].
Proof.
  exists many_commands, (state_of many_commands), (config_of many_commands).
  split; [split; vm_compute; reflexivity|]. split; [vm_compute; reflexivity|].
  set (x := hd new_cctx (cfg_contexts (config_of many_commands))). exists x.
  exists (nth 256 (cc_inputs x) (Inp [] 0)). split; [apply hd_In; vm_compute; discriminate|].
  split; vm_compute; reflexivity.
Qed.
Print Assumptions C66_refuted.
