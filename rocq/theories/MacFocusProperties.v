(** Property C115 of the focused window on macOS, with its assumptions and a non-trivial instance
    beside each theorem. *)
From Coq Require Import String Ascii List Arith NArith Bool Lia.
From Verif Require Import Base Text Config Client ClientSpec TyperSpec FocusSpec MacFocus.
Import ListNotations.
Local Open Scope N_scope.

(** ** Specification *)

(** The process in front, as far as the system told; None: not connected *)
Definition front_step (s : mstep) (p : option N) : option N :=
  match s, p with
  | MConnect q, _ => Some q
  | MLost, _ => None
  | MSwitched (Some q), Some _ => Some q
  | _, _ => p
  end.
Definition front (l : list mstep) : option N := fold_left (fun p s => front_step s p) l None.
(** All characters take three bytes in UTF-8 and one unit in UTF-16. *)
Definition all_three (name : list N) : Prop := name <> [] /\ Forall (fun c => 0x800 <= c < 0x10000) name.

(** ** The name *)

Lemma utf8_size c : N.of_nat (length (utf8 c)) <= 3 * (if c <? 0x10000 then 1 else 2) /\
  (N.of_nat (length (utf8 c)) = 3 * (if c <? 0x10000 then 1 else 2) <-> 0x800 <= c < 0x10000).
Proof.
  unfold utf8. destruct (N.ltb_spec c 0x80); [|destruct (N.ltb_spec c 0x800); [|destruct (N.ltb_spec c 0x10000)]];
    try (destruct (N.ltb_spec c 0x10000)); cbn [length N.of_nat Pos.of_succ_nat Pos.succ]; split; try split; lia.
Qed.
Lemma encoded_size name : N.of_nat (length (encoded name)) <= 3 * units name /\
  (N.of_nat (length (encoded name)) = 3 * units name <-> Forall (fun c => 0x800 <= c < 0x10000) name).
Proof.
  induction name as [|c r [IH1 IH2]]; [split; [cbn; lia|split; [constructor|reflexivity]]|].
  destruct (utf8_size c) as [S1 S2].
  unfold encoded in *. cbn [flat_map]. rewrite app_length, Nat2N.inj_add.
  change (units (c :: r)) with ((if c <? 0x10000 then 1 else 2) + units r).
  set (a := N.of_nat (length (utf8 c))) in *. set (b := N.of_nat (length (flat_map utf8 r))) in *.
  set (x := if c <? 0x10000 then 1 else 2) in *.
  split; [lia|]. split.
  - intros H. constructor; [apply S2|apply IH2]; lia.
  - intros H. inversion H as [|y z H1 H2]; subst y z. apply S2 in H1. apply IH2 in H2. lia.
Qed.
Lemma to_string_is name : (all_three name -> to_string name = []) /\ (~ all_three name -> to_string name = encoded name).
Proof.
  destruct (encoded_size name) as [S1 S2]. unfold to_string, get_c_string, max_size. cbv zeta.
  split; intros H.
  - destruct H as [_ H]. apply S2 in H. rewrite H, N.ltb_irrefl. reflexivity.
  - destruct (N.ltb_spec (N.of_nat (length (encoded name))) (3 * units name)) as [L|L]; [reflexivity|].
    destruct name as [|c r]; [reflexivity|]. elim H. split; [discriminate|]. apply S2. lia.
Qed.

Section Carbon.
Variable process_name : N -> option (list N).
Variable process_path : N -> option text.
Notation mac_step := (mac_step process_name process_path).
Notation mac_run := (mac_run process_name process_path).
Notation handled := (fold_left (fun f e => handle_event process_name process_path e f)).

(** The window as the system describes it *)
Definition described (p : N) : window :=
  Win (get_process_name process_name p) [] (get_process_path process_path p).

Definition last_front (l : list (option N)) (p : option N) : option N :=
  fold_left (fun p e => match e with Some q => Some q | None => p end) l p.

(** What holds after the steps: p is the last process handled *)
Record inv (fr : option N) (shown : window) (f : mac_focus) : Prop := Inv {
  in_title : w_title (mf_data f) = [];
  in_front : match mf_changed f with
             | None => fr = None /\ mf_waiting f = []
             | Some b => exists p, mf_data f = described p /\ fr = last_front (mf_waiting f) (Some p) /\
                           (b = false -> shown = mf_data f)
             end
}.

Lemma handled_inv now : forall p f b, mf_changed f = Some b -> mf_data f = described p ->
  let f' := handled now f in
  exists q b', last_front now (Some p) = Some q /\ mf_data f' = described q /\ mf_changed f' = Some b' /\
    mf_waiting f' = mf_waiting f /\ (b' = false -> b = false /\ mf_data f' = mf_data f).
Proof.
  induction now as [|e r IH]; intros p f b HC HD; cbv zeta.
  - exists p, b. cbn [fold_left]. auto 10.
  - cbn [fold_left last_front]. destruct e as [q|].
    + cbn [handle_event].
      destruct (IH q (handle_front_app_changed process_name process_path q f) true) as (q' & b' & A & B & C & D & F).
      * reflexivity.
      * unfold handle_front_app_changed, described. cbn [mf_data]. rewrite HD. reflexivity.
      * exists q', b'. repeat (split; [assumption|]). intros X. destruct (F X) as [Y _]. discriminate.
    + cbn [handle_event]. apply (IH p f b HC HD).
Qed.

Lemma inv_step s fr shown f : inv fr shown f ->
  inv (front_step s fr)
      (match fst (mac_step s f) with Some true => mf_data (snd (mac_step s f)) | _ => shown end)
      (snd (mac_step s f)).
Proof.
  intros [HT HF]. destruct s as [q| |e|n].
  - cbn [MacFocus.mac_step fst snd]. unfold mac_initialize, handle_front_app_changed.
    split; cbn [mf_data mf_changed mf_waiting w_title]; [exact HT|].
    exists q. unfold described. rewrite HT. split; [reflexivity|]. split; [destruct fr; reflexivity|discriminate].
  - cbn [MacFocus.mac_step fst snd]. split; cbn [mac_shutdown mf_data mf_changed mf_waiting]; [exact HT|].
    split; [destruct fr|]; reflexivity.
  - cbn [MacFocus.mac_step fst snd]. destruct (mf_changed f) as [b|] eqn:HC.
    + destruct HF as (p & D & F & G). split; cbn [mf_data mf_changed mf_waiting]; [exact HT|].
      exists p. split; [exact D|]. split; [|exact G].
      unfold last_front. rewrite fold_left_app. fold (last_front (mf_waiting f) (Some p)). rewrite <- F. cbn [fold_left].
      assert (X : exists z, fr = Some z).
      { rewrite F. clear. generalize p. induction (mf_waiting f) as [|x r IH]; intros z; [exists z; reflexivity|].
        cbn [last_front fold_left]. destruct x; apply IH. }
      destruct X as [z ->]. destruct e; reflexivity.
    + split; [exact HT|]. rewrite HC. destruct HF as [F G]. subst fr. split; [destruct e; reflexivity|exact G].
  - cbn [MacFocus.mac_step]. unfold mac_update. destruct (mf_changed f) as [b|] eqn:HC.
    2: { cbn [fst snd]. split; [exact HT|]. rewrite HC. destruct HF as [F G]. subst fr. split; [reflexivity|exact G]. }
    destruct HF as (p & D & F & G). cbv zeta.
    destruct (handled_inv (firstn n (mf_waiting f)) p (MF (mf_data f) (Some b) (skipn n (mf_waiting f))) b eq_refl D)
      as (q & b' & A & B & C & W & K).
    set (f1 := handled (firstn n (mf_waiting f)) (MF (mf_data f) (Some b) (skipn n (mf_waiting f)))) in *.
    rewrite C. cbn [fst snd]. cbn [mf_waiting] in W.
    split; cbn [mf_data mf_changed mf_waiting]; [rewrite B; reflexivity|].
    exists q. split; [exact B|]. split.
    + assert (fr = last_front (skipn n (mf_waiting f)) (Some q)).
      { rewrite F. rewrite <- (firstn_skipn n (mf_waiting f)) at 1. unfold last_front at 1. rewrite fold_left_app.
        fold (last_front (firstn n (mf_waiting f)) (Some p)). rewrite A. reflexivity. }
      rewrite W, <- H. destruct fr; reflexivity.
    + intros _. destruct b'; [reflexivity|]. destruct (K eq_refl) as [-> K2]. rewrite (G eq_refl). symmetry. exact K2.
Qed.

Lemma inv_run l : forall fr shown f, inv fr shown f ->
  inv (fold_left (fun p s => front_step s p) l fr) (last_shown (fst (mac_run l f)) shown) (snd (mac_run l f)).
Proof.
  induction l as [|s r IH]; intros fr shown f H; [exact H|].
  cbn [fold_left MacFocus.mac_run]. pose proof (inv_step s fr shown f H) as K.
  destruct (mac_step s f) as [o f']. cbn [fst snd] in K. specialize (IH _ _ _ K).
  destruct (mac_run r f') as [ws f'']. cbn [fst snd] in *. destruct o as [[|]|]; exact IH.
Qed.
Lemma inv_new : inv None (Win [] [] []) new_mac_focus.
Proof. split; [reflexivity|]. split; reflexivity. Qed.
End Carbon.

Lemma run_snoc pn pp l s : forall f, mac_run pn pp (l ++ [s]) f =
  (fst (mac_run pn pp l f) ++
     match fst (mac_step pn pp s (snd (mac_run pn pp l f))) with
     | Some true => [Some (mf_data (snd (mac_step pn pp s (snd (mac_run pn pp l f)))))]
     | Some false => [None]
     | None => []
     end,
   snd (mac_step pn pp s (snd (mac_run pn pp l f)))).
Proof.
  induction l as [|x r IH]; intros f.
  - cbn [app mac_run fst snd]. destruct (mac_step pn pp s f) as [[[|]|] f']; reflexivity.
  - cbn [app mac_run]. destruct (mac_step pn pp x f) as [o f']. rewrite IH.
    destruct (mac_run pn pp r f') as [ws f'']. cbn [fst snd]. destruct o as [[|]|]; reflexivity.
Qed.

(** ** C115 The focused application on macOS *)

(** Once all events have been handled, the client knows the process in front: its name is the class,
    its path the path, and there is no title.  Missing: names all of whose characters take three bytes,
    for which it is false, and processes whose name or path the system does not tell. *)
Theorem C115_front_partial : forall process_name process_path l n p name path,
  let r := mac_run process_name process_path (l ++ [MUpdate n]) new_mac_focus in
  mf_waiting (snd r) = [] -> front l = Some p ->
  process_name p = Some name -> process_path p = Some path -> ~ all_three name ->
  last_shown (fst r) (Win [] [] []) = Win (encoded name) [] path.
Proof.
  intros pn pp l n p name path r HW HF HN HP HA.
  pose proof (inv_run pn pp (l ++ [MUpdate n]) _ _ _ (inv_new pn pp)) as [_ K].
  fold r in K. rewrite fold_left_app in K. fold (front l) in K. rewrite HF in K. cbn [fold_left front_step] in K.
  assert (C : mf_changed (snd r) = Some false \/ mf_changed (snd r) = None).
  { unfold r. rewrite run_snoc. cbn [snd mac_step]. unfold mac_update.
    destruct (mf_changed (snd (mac_run pn pp l new_mac_focus))) eqn:E; [left|right]; [reflexivity|exact E]. }
  destruct C as [C|C]; rewrite C in K; [|destruct K as [K _]; discriminate].
  destruct K as (q & D & F & G). rewrite HW in F. cbn [last_front fold_left] in F. injection F as <-.
  rewrite (G eq_refl), D. unfold described, get_process_name, get_process_path. rewrite HN, HP.
  rewrite (proj2 (to_string_is name) HA). reflexivity.
Qed.
Print Assumptions C115_front_partial.

(** Three applications: Mail, Files with a Greek and a Chinese character, and WeChat in Chinese *)
Definition app_names (p : N) : option (list N) :=
  if p =? 1 then Some [77; 97; 105; 108]
  else if p =? 2 then Some [70; 0x3B1; 0x6587; 0x1F4C1]
  else if p =? 3 then Some [0x5FAE; 0x4FE1] else None.
Definition app_paths (p : N) : option text :=
  if p =? 1 then Some (T "/Applications/Mail.app") else if p =? 2 then Some (T "/Applications/Files.app")
  else if p =? 3 then Some (T "/Applications/WeChat.app") else None.
Example C115_front_case :
  let r := mac_run app_names app_paths
    [MConnect 1; MUpdate 0; MSwitched (Some 3); MSwitched (Some 2); MUpdate 1; MUpdate 5; MUpdate 5] new_mac_focus in
  mf_waiting (snd r) = [] /\
  fst r = [Some (Win (T "Mail") [] (T "/Applications/Mail.app")); Some (Win [] [] (T "/Applications/WeChat.app"));
           Some (Win (encoded [70; 0x3B1; 0x6587; 0x1F4C1]) [] (T "/Applications/Files.app")); None] /\
  front [MConnect 1; MUpdate 0; MSwitched (Some 3); MSwitched (Some 2); MUpdate 1; MUpdate 5] = Some 2 /\
  ~ all_three [70; 0x3B1; 0x6587; 0x1F4C1].
Proof.
  cbv zeta. split; [vm_compute; reflexivity|]. split; [vm_compute; reflexivity|]. split; [reflexivity|].
  intros [_ H]. apply Forall_inv in H. lia.
Qed.

(** The name of an application is known exactly unless all of its characters take three bytes, then
    the class is empty. *)
Theorem C115_name : forall process_name process_path l n p name,
  let r := mac_run process_name process_path (l ++ [MUpdate n]) new_mac_focus in
  mf_waiting (snd r) = [] -> front l = Some p -> process_name p = Some name ->
  w_class (last_shown (fst r) (Win [] [] [])) = encoded name <-> ~ all_three name.
Proof.
  intros pn pp l n p name r HW HF HN.
  pose proof (inv_run pn pp (l ++ [MUpdate n]) _ _ _ (inv_new pn pp)) as [_ K].
  fold r in K. rewrite fold_left_app in K. fold (front l) in K. rewrite HF in K. cbn [fold_left front_step] in K.
  assert (C : mf_changed (snd r) = Some false \/ mf_changed (snd r) = None).
  { unfold r. rewrite run_snoc. cbn [snd mac_step]. unfold mac_update.
    destruct (mf_changed (snd (mac_run pn pp l new_mac_focus))) eqn:E; [left|right]; [reflexivity|exact E]. }
  destruct C as [C|C]; rewrite C in K; [|destruct K as [K _]; discriminate].
  destruct K as (q & D & F & G). rewrite HW in F. cbn [last_front fold_left] in F. injection F as <-.
  rewrite (G eq_refl), D. unfold described. cbn [w_class]. unfold get_process_name. rewrite HN.
  destruct (to_string_is name) as [T1 T2]. split.
  - intros E A. rewrite (T1 A) in E. destruct A as [NE A]. destruct name as [|c x]; [congruence|].
    destruct (encoded_size (c :: x)) as [_ S2]. apply S2 in A. rewrite <- E in A. cbn [length N.of_nat] in A.
    change (units (c :: x)) with ((if c <? 0x10000 then 1 else 2) + units x) in A. destruct (c <? 0x10000); lia.
  - exact T2.
Qed.
Print Assumptions C115_name.

(** WeChat in Chinese: a context for its class is never active. *)
Theorem C115_name_refuted : exists l p name,
  front l = Some p /\ app_names p = Some name /\
  last_shown (fst (mac_run app_names app_paths (l ++ [MUpdate 1]) new_mac_focus)) (Win [] [] []) =
    Win [] [] (T "/Applications/WeChat.app") /\
  encoded name <> [].
Proof.
  exists [MConnect 3], 3, [0x5FAE; 0x4FE1]. split; [reflexivity|]. split; [reflexivity|].
  split; [vm_compute; reflexivity|]. vm_compute. discriminate.
Qed.
Print Assumptions C115_name_refuted.

(** There never is a title (as README.md:132 says): a context which asks for one by a text is never
    active. *)
Theorem C115_title : forall process_name process_path l w,
  In (Some w) (fst (mac_run process_name process_path l new_mac_focus)) ->
  w_title w = [] /\
  forall search f, f_string f <> [] -> f_regex f = false -> f_invert f = false ->
    ~ accepts search false f (w_title w).
Proof.
  intros pn pp l w H.
  assert (K : forall l fr shown f, inv pn pp fr shown f -> In (Some w) (fst (mac_run pn pp l f)) -> w_title w = []).
  { clear. induction l as [|s r IH]; intros fr shown f HI H; [destruct H|].
    cbn [mac_run] in H. pose proof (inv_step pn pp s fr shown f HI) as K.
    destruct (mac_step pn pp s f) as [o f'] eqn:E. cbn [fst snd] in K.
    specialize (IH _ _ _ K). destruct (mac_run pn pp r f') as [ws f'']. cbn [fst] in *.
    destruct o as [[|]|]; [destruct H as [H|H]|destruct H as [H|H]|]; try (apply IH; exact H); [|discriminate].
    injection H as <-. exact (in_title _ _ _ _ _ K). }
  pose proof (K l _ _ _ (inv_new pn pp) H) as TT. split; [exact TT|].
  intros search f H1 H2 H3. rewrite TT. unfold accepts. cbv zeta. rewrite H2, H3. 
  intros [HA|(a & b & HA)]; [exact (H1 HA)|]. destruct a; [|discriminate HA].
  destruct (f_string f); [exact (H1 eq_refl)|discriminate HA].
Qed.
Print Assumptions C115_title.

Example C115_title_case :
  fst (mac_run app_names app_paths [MConnect 1; MUpdate 0] new_mac_focus) =
    [Some (Win (T "Mail") [] (T "/Applications/Mail.app"))] /\
  f_string (Filter (T "Inbox") false false) <> [].
Proof. split; [vm_compute; reflexivity|discriminate]. Qed.
