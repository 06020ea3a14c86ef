(** Property C116 of the information about the next key, with its assumptions and a non-trivial
    instance beside each theorem. *)
From Coq Require Import String Ascii List Arith NArith ZArith Bool Lia.
From Verif Require Import Base Key Text KeyNames Match ParseSeq Stage Config MultiStage Replay StageProperties
  Serial Client ClientSpec ClientProofs ClientProperties KeyInfoSpec KeyInfoProofs.
Import ListNotations.
Local Open Scope N_scope.

(** ** C116 The information about the next key *)

(** Every information which is shown or answered tells the name and the number of the key the server
    reported last, the device it came from, the system and the window which had the focus, and nothing
    else under these labels.  Missing: names with a line end in them, for which it is false. *)
Theorem C116_told_partial : forall search typer key_name system sent focus disk name l,
  infos_about (fun k device id w t =>
      k < 65536 -> all_one_line key_name system k device id w -> tells key_name system k device id w t)
    (cl_trace (client_main search typer key_name system sent focus disk name l)).
Proof.
  intros search typer key_name system sent focus disk name l p e q info HE HI.
  destruct (Q_main search typer key_name system sent focus disk name l) as [A _].
  destruct (A p e q info HE HI) as (p1 & k & device & id & p2 & X & Y & Z).
  exists p1, k, device, id, p2. split; [exact X|]. split; [exact Y|].
  intros HK HO. unfold exactly in Z. rewrite Z. apply info_tells; assumption.
Qed.
Print Assumptions C116_told_partial.

Definition key_a_name (k : key) : option text := if k =? 30 then Some (T "A") else None.
(** keymapperctl asks twice; in between another window gets the focus. *)
Definition info_run : client :=
  client_main find_sub no_typer key_a_name (T "Linux") (fun _ => true) windows always (T "a")
    [one_turn [] (Some 5) (asks 5 [QNextKey]); one_turn [DNextKeyInfo 30 (T "Keyboard") (T "usb-1")] None nothing;
     one_turn [] None nothing; one_turn [] None nothing;
     one_turn [DNextKeyInfo 0xF001 [] []] None nothing].
Example C116_told_case :
  flat_map (fun e => match info_of e with Some t => [text_lines t] | None => [] end) (cl_trace info_run) =
  [map T ["key_name = 'A'"; "scan_code = 0x001E"; "system = 'Linux'"; "class = 'Term'"; "device = 'Keyboard'"; "device-id = 'usb-1'"]%string;
   map T ["scan_code = 0xF001"; "system = 'Linux'"; "title = 'my doc'"]%string] /\
  all_one_line key_a_name (T "Linux") 30 (T "Keyboard") (T "usb-1") (Win (T "Term") [] []).
Proof.
  split; [vm_compute; reflexivity|].
  assert (K : forall s, forallb (fun c => negb (Ascii.eqb c line_end)) (T s) = true -> one_line (T s)).
  { intros s H X. rewrite forallb_forall in H. specialize (H _ X). rewrite Ascii.eqb_refl in H. discriminate. }
  unfold all_one_line. repeat split; try (apply (K ""%string); reflexivity).
  - intros n H. injection H as <-. apply (K "A"%string). reflexivity.
  - apply (K "Linux"%string). reflexivity.
  - apply (K "Keyboard"%string). reflexivity.
  - apply (K "usb-1"%string). reflexivity.
  - apply (K "Term"%string). reflexivity.
Qed.

(** What the server reports is passed on at once, to each keymapperctl which asked for it, and to the
    user when none did.  No one is told twice. *)
Lemma reply_adds t l : forall c,
  cl_trace (snd (reply_loop t l c)) =
    cl_trace c ++ map (fun x => FAnswer (ct_socket x) (ANextKeyInfo t)) (List.filter ct_info l) /\
  fst (fst (reply_loop t l c)) = existsb ct_info l /\
  Forall (fun x => ct_info x = false) (snd (fst (reply_loop t l c))).
Proof.
  induction l as [|x r IH]; intros c.
  - cbn. rewrite app_nil_r. auto.
  - cbn [reply_loop]. cbv zeta. set (c1 := if ct_info x then _ else c).
    destruct (IH c1) as (A & B & C). destruct (reply_loop t r c1) as [[b r'] c']. cbn [fst snd] in *.
    unfold c1 in A. cbn [List.filter existsb]. rewrite B.
    split; [|split; [reflexivity|constructor; [reflexivity|exact C]]].
    destruct (ct_info x); [|exact A]. rewrite A. unfold answer. cbn [emit cl_trace map]. rewrite <- app_assoc. reflexivity.
Qed.
Theorem C116_passed : forall key_name system k device id c,
  let c' := on_server_message key_name system (DNextKeyInfo k device id) c in
  exists t, cl_trace c' = cl_trace c ++ FGot (DNextKeyInfo k device id) ::
      match List.filter ct_info (cl_controls c) with
      | [] => [FShow t]
      | asked => map (fun x => FAnswer (ct_socket x) (ANextKeyInfo t)) asked
      end /\
    Forall (fun x => ct_info x = false) (cl_controls c').
Proof.
  intros key_name system k device id c. unfold on_server_message. cbv zeta.
  set (c0 := emit (FGot (DNextKeyInfo k device id)) c).
  set (t := key_info_text key_name system k device id (cl_window c0)).
  destruct (reply_adds t (cl_controls c0) c0) as (A & B & C).
  destruct (reply_loop t (cl_controls c0) c0) as [[b l] c']. cbn [fst snd] in *. exists t.
  change (cl_controls c0) with (cl_controls c) in *.
  assert (T0 : cl_trace c0 = cl_trace c ++ [FGot (DNextKeyInfo k device id)]) by reflexivity.
  assert (X : b = match List.filter ct_info (cl_controls c) with [] => false | _ => true end).
  { rewrite B. clear. induction (cl_controls c) as [|x r IH]; [reflexivity|]. cbn [existsb List.filter].
    destruct (ct_info x); [reflexivity|exact IH]. }
  rewrite X. rewrite T0, <- app_assoc in A.
  destruct (List.filter ct_info (cl_controls c)) as [|y ys]; (split; [|exact C]).
  - cbn [emit c_controls cl_trace]. rewrite A. cbn [map]. rewrite <- !app_assoc. reflexivity.
  - cbn [c_controls cl_trace]. exact A.
Qed.
Print Assumptions C116_passed.

(** A page whose title has a second line which looks like a class *)
Definition forged (n : nat) : option window :=
  match n with O => Some (Win (T "Browser") (T "News" ++ line_end :: T "class = 'Editor") []) | _ => None end.
Theorem C116_told_refuted : exists l p k device id w q t,
  cl_trace (client_main find_sub no_typer key_a_name (T "Linux") (fun _ => true) forged always (T "a") l) =
    p ++ FGot (DNextKeyInfo k device id) :: FShow t :: q /\
  window_of p = w /\ k < 65536 /\ w_class w = T "Browser" /\
  ~ tells key_a_name (T "Linux") k device id w t.
Proof.
  exists [one_turn [DNextKeyInfo 30 [] []] None nothing].
  set (tr := cl_trace _). exists (removelast (removelast tr)), 30, [], [], (window_of (removelast (removelast tr))), [].
  eexists. split; [vm_compute; reflexivity|]. split; [reflexivity|]. split; [reflexivity|]. split; [vm_compute; reflexivity|].
  intros [H _]. specialize (H (T "class") (T "Editor")). destruct H as [H _].
  - cbn. auto 10.
  - intros K. cbn in K. repeat (destruct K as [K|K]; [discriminate K|]). exact K.
  - assert (X : says key_a_name (T "Linux") 30 [] [] (window_of (removelast (removelast tr))) (T "class") (T "Editor")).
    { apply H. vm_compute. auto 10. }
    assert (W : w_class (window_of (removelast (removelast tr))) = T "Browser") by (vm_compute; reflexivity).
    revert X W. generalize (window_of (removelast (removelast tr))). intros w X W. 
    inversion X as [| | |Y Y1 Y2| | |]. rewrite W in Y2. discriminate Y2.
Qed.
Print Assumptions C116_told_refuted.
