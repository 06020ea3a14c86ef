(** Proofs about whole configurations: what holds of every file which loads. *)
From Coq Require Import List Arith NArith ZArith Bool Lia.
From Verif Require Import Base Key Text Match Stage StageSpec StageShape MultiStage MultiSpec ParseSeq Config Replay
  ConfigShape ConfigSpec ConfigProofs ConfigLogical ConfigParse ConfigForward.
Import ListNotations.
Local Open Scope N_scope.

(** * Stages as the server cuts them *)

Definition server_block (x : cctx) : context := snd (server_context x).

Lemma split_cons : forall l cur, cur <> [] ->
  split_stages (map server_context l) cur =
  match l with
  | [] => [cur]
  | y :: _ => if cc_stage y then cur :: map (map server_block) (cut l)
              else match cut l with
                   | s :: ss => (cur ++ map server_block s) :: map (map server_block) ss
                   | [] => [cur]
                   end
  end.
Proof.
  induction l as [|x l IH]; intros cur H.
  - cbn. now destruct cur.
  - cbn [map]. unfold server_context at 1. cbn [split_stages].
    set (b := {| cx_inputs := cc_inputs x |}). change b with (server_block x). clear b.
    destruct (cc_stage x) eqn:Ex.
    + destruct cur as [|c0 cur]; [easy|]. f_equal. rewrite IH by discriminate. destruct l as [|y l]; [reflexivity|].
      change (cut (x :: y :: l)) with (if cc_stage y then [x] :: cut (y :: l)
          else match cut (y :: l) with s :: ss => (x :: s) :: ss | [] => [[x]] end).
      destruct (cc_stage y); [reflexivity|]. now destruct (cut (y :: l)).
    + rewrite IH by (destruct cur; discriminate). destruct l as [|y l]; [reflexivity|].
      change (cut (x :: y :: l)) with (if cc_stage y then [x] :: cut (y :: l)
          else match cut (y :: l) with s :: ss => (x :: s) :: ss | [] => [[x]] end).
      destruct (cc_stage y); [reflexivity|]. destruct (cut (y :: l)) as [|s ss]; [reflexivity|].
      cbn [map]. now rewrite <- app_assoc.
Qed.
(** The server finds the stages of the specification. *)
Lemma split_cut : forall l, l <> [] ->
  split_stages (map server_context l) [] = map (map server_block) (cut l).
Proof.
  intros [|x l] H; [easy|]. cbn [map]. unfold server_context at 1. cbn [split_stages app].
  set (b := {| cx_inputs := cc_inputs x |}). change b with (server_block x). clear b.
  assert (E : (if cc_stage x then split_stages (map server_context l) [server_block x]
               else split_stages (map server_context l) [server_block x]) = split_stages (map server_context l) [server_block x])
    by now destruct (cc_stage x).
  transitivity (split_stages (map server_context l) [server_block x]); [now destruct (cc_stage x)|]. clear E.
  rewrite split_cons by discriminate. destruct l as [|y l]; [reflexivity|].
  change (cut (x :: y :: l)) with (if cc_stage y then [x] :: cut (y :: l)
      else match cut (y :: l) with s :: ss => (x :: s) :: ss | [] => [[x]] end).
  destruct (cc_stage y); [reflexivity|]. now destruct (cut (y :: l)).
Qed.
Lemma cut_chain : forall l, chain l -> Forall chain (cut l).
Proof.
  induction l as [|x l IH]; intros C; [repeat constructor|]. destruct C as [A B]. specialize (IH B).
  destruct l as [|y l].
  - constructor; [|constructor]. split; [|exact I]. exact A.
  - change (cut (x :: y :: l)) with (if cc_stage y then [x] :: cut (y :: l)
      else match cut (y :: l) with s :: ss => (x :: s) :: ss | [] => [[x]] end).
    destruct (cc_stage y) eqn:Ey.
    + constructor; [|exact IH]. split; [|exact I]. intros F. specialize (A F). congruence.
    + destruct (cut (y :: l)) as [|s ss] eqn:E.
      * constructor; [|constructor]. split; [|exact I]. now apply cut_ne in E.
      * inversion_clear IH as [|? ? P Q]. constructor; [|exact Q]. split; [|exact P].
        intros F. assert (exists r, s = y :: r) as [r ->]; [|exact Ey].
        clear - E. destruct l as [|z l]; [injection E as <- <-; now exists []|].
        change (cut (y :: z :: l)) with (if cc_stage z then [y] :: cut (z :: l)
          else match cut (z :: l) with s :: ss => (y :: s) :: ss | [] => [[y]] end) in E.
        destruct (cc_stage z); [injection E as <- <-; now exists []|].
        destruct (cut (z :: l)); injection E as <- <-; [now exists []|]. eexists. reflexivity.
Qed.
Lemma cut_in : forall l s x, In s (cut l) -> In x s -> In x l.
Proof.
  induction l as [|y l IH]; intros s x Hs Hx; [destruct Hs as [<-|[]]; contradiction|].
  destruct l as [|z l]; [destruct Hs as [<-|[]]; exact Hx|].
  change (cut (y :: z :: l)) with (if cc_stage z then [y] :: cut (z :: l)
    else match cut (z :: l) with s :: ss => (y :: s) :: ss | [] => [[y]] end) in Hs.
  destruct (cc_stage z).
  - destruct Hs as [<-|Hs]; [destruct Hx as [<-|[]]; now left|]. right. eapply IH; eauto.
  - destruct (cut (z :: l)) as [|s0 ss] eqn:E; [now apply cut_ne in E|].
    destruct Hs as [<-|Hs].
    + destruct Hx as [<-|Hx]; [now left|]. right. eapply IH; [|exact Hx]. now left.
    + right. eapply IH; [|exact Hx]. now right.
Qed.

(** * Files which load *)

Section Load.
Variable typer : option (key * bool) -> text -> list stroke.
Variable regex_ok : text -> bool -> bool.
Variable read_file : text -> option (list text).
Variable current_system : text.

Notation parse t := (parse_file typer regex_ok read_file current_system 10 (split_lines t []) c_init).

Lemma parse_config_parts : forall t cfg, parse_config typer regex_ok read_file current_system t = POk cfg ->
  exists c, parse t = POk c /\ finish_config c = POk cfg.
Proof. intros t cfg H. unfold parse_config in H. now apply pbind_ok in H. Qed.

Lemma parsed_weak : forall t c, parse t = POk c -> Good False c.
Proof.
  intros t c H. apply (parse_file_ext False) in H; [|tauto]. apply H; [tauto|apply c_init_good].
Qed.

Definition prepared (c : cstate) : list cctx := map (prepend_forward (c_forward c)) (c_contexts c).
Definition replaced (c : cstate) : list cctx :=
  fold_left replace_logical_key (rev (c_logical c)) (optimize_contexts (prepared c)).
Lemma finished : forall c cfg, finish_config c = POk cfg -> cfg_contexts cfg = suppress_forwarded (c_forward c) (replaced c).
Proof.
  intros c cfg H. unfold finish_config in H. destruct (_ && _); [discriminate|]. injection H as <-. reflexivity.
Qed.
Lemma prepared_weak : forall t c, parse t = POk c -> cgood False (prepared c).
Proof.
  intros t c H. apply parsed_weak in H. destruct H as [G1 _ G3 _ _ _ _]. apply prepend_forward_good; [tauto|exact G1].
Qed.

(** ** C39 *)
Theorem loaded_chained : forall t cfg, parse_config typer regex_ok read_file current_system t = POk cfg ->
  chained (cfg_contexts cfg).
Proof.
  intros t cfg H. apply parse_config_parts in H. destruct H as [c [H F]]. apply parsed_weak in H.
  apply finish_good with (W := False) in F; [|exact H]. apply chain_chained, F.
Qed.

(** ** C40 *)
Theorem loaded_meaning : forall met t c, parse t = POk c ->
  meaning met (prepared c) = meaning met (optimize_contexts (prepared c)) \/
  meaning met (prepared c) = [] :: meaning met (optimize_contexts (prepared c)).
Proof.
  intros met t c H. apply prepared_weak in H. destruct H as [Ne _ Pl C]. apply optimize_meaning; auto.
  eapply Forall_impl; [|exact Pl]. intros x Hx E. destruct (Hx E) as [_ [K _]]. unfold conds, no_conds in K. congruence.
Qed.

(** ** With bounds *)
Hypothesis good_typer : forall c t, Forall (fun x => st_key x <> 0 /\ st_value x = 0) (typer c t).

Lemma parsed_good : forall t c, parse t = POk c -> bounded c -> Good True c.
Proof.
  intros t c H B. apply (parse_file_ext True) in H; [|auto]. apply H; [auto|apply c_init_good].
Qed.
Lemma logical_apart : forall l, logical_ok l -> Forall apart l.
Proof.
  intros l [_ H]. apply Forall_forall. intros k Hk. apply In_nth_error in Hk. destruct Hk as [i Hi].
  destruct (H i k Hi) as [_ [[_ A] [_ B]]]. split; lia.
Qed.
Lemma Forall_rev_of : forall {A} (P : A -> Prop) l, Forall P l -> Forall P (rev l).
Proof. intros A P l H. now apply Forall_rev. Qed.

(** ** C41 *)
Lemma prepared_direct : forall c k, Forall (direct k) (c_contexts c) -> Forall (direct k) (optimize_contexts (prepared c)).
Proof.
  intros c k H. apply optimize_inv.
  - intros moved x _ Hx. unfold direct. rewrite take_over_mods. intros E. apply Hx.
    pose proof (take_over_conds moved x) as K. unfold conds in K. congruence.
  - intros E. discriminate E.
  - unfold prepared. rewrite Forall_map. eapply Forall_impl; [|exact H]. intros x Hx. unfold direct.
    destruct (prepend_forward_marks (c_forward c) x) as [_ [_ [Em Ec]]]. rewrite Em. intros E. apply Hx.
    unfold conds in Ec. congruence.
Qed.
Theorem loaded_logical : forall other down t c, parse t = POk c -> bounded c ->
  logical_down (c_logical c) down ->
  (forall k, In k (c_logical c) -> Forall (direct k) (c_contexts c)) ->
  meaning (met_with other down) (replaced c) =
  map (map (fun m => fold_left (fun m k => written_maps k m) (rev (c_logical c)) m))
    (meaning (met_with other down) (optimize_contexts (prepared c))).
Proof.
  intros other down t c H B Hd Hx. apply parsed_good in H; [|exact B]. destruct H as [G1 G2 G3 _ _ _ _].
  specialize (G2 I). assert (Go : cgood True (optimize_contexts (prepared c))) by (now apply optimize_good, prepend_forward_good).
  assert (Gr : cgood True (replaced c)).
  { apply replace_all_good; [|exact Go]. intros _. now apply Forall_rev_of, logical_lk_ok. }
  rewrite !meaning_go; [|apply Go|apply Gr]. apply fold_logical_go.
  - now apply Forall_rev_of, logical_apart.
  - now apply Forall_rev_of, logical_lk_ok.
  - intros k Hk. apply Hd. now apply in_rev in Hk.
  - exact Go.
  - intros k Hk. apply prepared_direct, Hx. now apply in_rev in Hk.
Qed.

Definition above (n : nat) (L : nat) (c : key) : Prop :=
  ~ (first_logical + N.of_nat n <= c < first_logical + N.of_nat L).
Lemma above_all : forall x, ckeys (fun _ => True) x.
Proof.
  intros x. assert (K : forall s, keys (fun _ => True) s) by (intros s; apply Forall_forall; auto).
  split; auto; apply Forall_forall; intros; apply K.
Qed.
Lemma fold_keys : forall L ks n l, (n + length ks <= L)%nat ->
  (forall i k, nth_error ks i = Some k -> lk_both k = first_logical + N.of_nat (n + i) /\
     lk_left k < lk_both k /\ lk_right k < lk_both k) ->
  Forall (ckeys (above (n + length ks) L)) l ->
  Forall (ckeys (above n L)) (fold_left replace_logical_key (rev ks) l).
Proof.
  intros L ks. induction ks as [|k ks IH] using rev_ind; intros n l Hl H F.
  - cbn [length] in F. now rewrite Nat.add_0_r in F.
  - rewrite rev_app_distr. cbn [rev app fold_left]. rewrite app_length in *. cbn [length] in *.
    destruct (H (length ks) k) as [Eb [El Er]]; [rewrite nth_error_app2, Nat.sub_diag by lia; reflexivity|].
    apply IH; [lia| |].
    + intros i k' Hi. apply H. rewrite nth_error_app1; [exact Hi|]. apply nth_error_Some. congruence.
    + eapply Forall_impl; [|apply (replace_keys (above (n + (length ks + 1)) L) k), F].
      intros x. apply ckeys_impl. unfold above. intros c [[A Nc]|[-> | ->]]; lia.
Qed.
Lemma ckeys_events : forall (Q : key -> Prop) x e, ckeys Q x -> In e (events_of x) -> Q (ek e).
Proof.
  intros Q x e [A B C D] H. unfold events_of in H.
  assert (K : forall (X : Type) (f : X -> sequence) l, Forall (fun i => keys Q (f i)) l -> In e (concat (map f l)) -> Q (ek e)).
  { intros X f l F He. apply in_concat in He. destruct He as [s [Hs He]]. apply in_map_iff in Hs. destruct Hs as [i [<- Hi]].
    rewrite Forall_forall in F. specialize (F i Hi). unfold keys in F. rewrite Forall_forall in F. now apply F. }
  apply in_app_or in H. destruct H as [H|H]; [now apply (K _ in_seq (cc_inputs x))|].
  apply in_app_or in H. destruct H as [H|H]; [apply (K _ (fun o => o) (cc_outputs x)); [exact B|now rewrite map_id]|].
  apply in_app_or in H. destruct H as [H|H]; [now apply (K _ cm_out (cc_commands x))|].
  unfold keys in D. rewrite Forall_forall in D. now apply D.
Qed.
Theorem loaded_no_logical : forall t c cfg, parse t = POk c -> bounded c -> finish_config c = POk cfg ->
  forall x e k, In x (cfg_contexts cfg) -> In e (events_of x) -> In k (c_logical c) -> ek e <> lk_both k.
Proof.
  intros t c cfg H B F x e k Hx He Hk. apply parsed_good in H; [|exact B]. destruct H as [_ G2 _ _ _ _ _].
  specialize (G2 I). rewrite (finished _ _ F) in Hx.
  assert (A : Forall (ckeys (above 0 (length (c_logical c)))) (suppress_forwarded (c_forward c) (replaced c))).
  { apply suppress_keys. unfold replaced. destruct G2 as [_ G2]. apply fold_keys; [lia| |].
    - intros i k' Hi. destruct (G2 i k' Hi) as [P [[_ Q] [_ R]]]. auto.
    - apply Forall_forall. intros y _. eapply ckeys_impl; [|apply above_all]. intros q _. unfold above. lia. }
  rewrite Forall_forall in A. pose proof (ckeys_events _ _ _ (A x Hx) He) as Q.
  apply In_nth_error in Hk. destruct Hk as [i Hi]. destruct G2 as [_ G2]. destruct (G2 i k Hi) as [P _].
  assert (i < length (c_logical c))%nat by (apply nth_error_Some; congruence). unfold above in Q. lia.
Qed.

(** ** C50 *)
Lemma physical_ne : forall ks l, l <> [] -> physical ks l <> [].
Proof.
  induction ks as [|k ks IH]; intros l H; [exact H|]. unfold physical. cbn [fold_left]. apply IH.
  destruct l as [|c l]; [easy|]. cbn [flat_map]. unfold either_key at 1. destruct (c =? lk_both k); discriminate.
Qed.
Theorem loaded_forward : forall t c cfg, parse t = POk c -> bounded c -> finish_config c = POk cfg ->
  c_forward c <> [] ->
  forall s, In s (cut (cfg_contexts cfg)) -> exists x r rest, s = x :: r /\
    cc_mods x = [] /\ conds x = no_conds /\ cc_fall x = false /\
    mappings x = map forwarding (physical (rev (c_logical c)) (c_forward c)) ++ rest.
Proof.
  intros t c cfg H B F Hf s Hs. assert (Gc : cgood True (cfg_contexts cfg)).
  { apply finish_good with (c := c); [|exact F]. now apply parsed_good with t. }
  apply parsed_good in H; [|exact B]. destruct H as [[Ne _ Pl _] G2 _ _ _ G6 G7].
  specialize (G2 I). rewrite (finished _ _ F) in *.
  assert (Fr : Forall (front (c_forward c)) (prepared c)) by now apply prepend_front.
  assert (St : starts (optimize_contexts (prepared c))).
  { unfold prepared in *. destruct (c_contexts c) as [|x l]; [contradiction|]. cbn [map] in *.
    inversion_clear Pl as [|? ? Px _]. inversion_clear Fr as [|? ? Fx _].
    destruct (prepend_forward_marks (c_forward c) x) as [Ef [Es [_ Ec]]]. destruct (Px G6) as [_ [K Kf]].
    destruct (optimize_first (prepend_forward (c_forward c) x) (map (prepend_forward (c_forward c)) l)) as [l' E].
    - congruence.
    - unfold conds, no_conds in *. congruence.
    - rewrite <- Es in G6. destruct (Fx G6) as [_ Fx']. apply fronted_maps in Fx'. destruct Fx' as [rest R].
      destruct (c_forward c); [easy|]. intros C. unfold mappings in R. rewrite C in R. discriminate R.
    - rewrite E. cbn [starts]. congruence. }
  apply optimize_front in Fr. destruct (replace_all_front (rev (c_logical c)) _ _ (Forall_rev_of _ _ (logical_apart _ G2)) Fr St) as [Fr2 St2].
  fold (replaced c) in Fr2, St2. destruct (suppress_front (c_forward c) _ _ Fr2 St2) as [Fr3 St3].
  destruct (cut_stage _ _ St3 Hs) as [x [r [Er [Hx Sx]]]]. rewrite Forall_forall in Fr3.
  destruct (Fr3 x Hx Sx) as [[A M] Q]. apply fronted_maps in Q. destruct Q as [rest Q]. exists x, r, rest.
  destruct Gc as [_ _ Pc _]. rewrite Forall_forall in Pc. destruct (Pc x Hx Sx) as [P1 [P2 P3]]. auto.
Qed.

Lemma suppressed_mentions : forall (P : key -> Prop) a b k, suppressed P a b -> P k -> mentions k b.
Proof.
  intros P a b k [ks [E [_ Hk]]] Pk. destruct (contains_event a (ev0 k Down) || contains_event a (ev0 k Not)) eqn:C.
  - apply contains_mentions in C. rewrite E. destruct C as [C|C]; [left|right]; apply in_or_app; now right.
  - assert (~ mentions k a) by (intros M; apply contains_mentions in M; congruence).
    assert (I1 : In k ks) by now apply Hk. right. rewrite E. apply in_or_app. left. now apply (in_map (fun c => ev0 c Not)).
Qed.
Theorem loaded_suppressed : forall c cfg, finish_config c = POk cfg ->
  forall x i k, In x (cfg_contexts cfg) -> In i (cc_inputs x) -> In k (c_forward c) -> In (ev0 k Down) (in_seq i) ->
  (forall o, (0 <= in_out i)%Z -> nth_error (cc_outputs x) (Z.to_nat (in_out i)) = Some o -> mentions k o) /\
  ((in_out i < 0)%Z -> forall y m, In y (cfg_contexts cfg) -> In m (cc_commands y) -> cm_idx m = in_out i -> mentions k (cm_out m)).
Proof.
  intros c cfg F x i k Hx Hi Hk Hd. rewrite (finished _ _ F) in *. destruct (suppress_spec (c_forward c) (replaced c)) as [L Sp].
  assert (Back : forall y, In y (suppress_forwarded (c_forward c) (replaced c)) -> exists m z,
            nth_error (replaced c) m = Some z /\ nth_error (suppress_forwarded (c_forward c) (replaced c)) m = Some y).
  { intros y Hy. apply In_nth_error in Hy. destruct Hy as [m Hm].
    assert (Lt : (m < length (replaced c))%nat) by (rewrite <- L; apply nth_error_Some; congruence).
    destruct (nth_error (replaced c) m) as [z|] eqn:Hz; [|apply nth_error_None in Hz; lia]. now exists m, z. }
  destruct (Back x Hx) as [m [z [Hz Hm]]]. destruct (Sp m z Hz) as [x' [Hx' [Fz [O _]]]].
  assert (x' = x) by congruence. subst x'. unfold frame_of in Fz. injection Fz as _ _ _ _ _ _ _ Fi Fo _ _ _ _.
  split.
  - intros o Z0 Ho. assert (Lt : (Z.to_nat (in_out i) < length (cc_outputs z))%nat) by (rewrite <- Fo; apply nth_error_Some; congruence).
    destruct (nth_error (cc_outputs z) (Z.to_nat (in_out i))) as [a|] eqn:Ha; [|apply nth_error_None in Ha; lia].
    destruct (O _ _ Ha) as [b [Hb Sb]]. assert (b = o) by congruence. subst b.
    eapply suppressed_mentions; [exact Sb|]. split; [exact Hk|]. exists i. rewrite <- Fi. split; [exact Hi|].
    split; [lia|exact Hd].
  - intros Z0 y n Hy Hn En. destruct (Back y Hy) as [q [w [Hw Hq]]]. destruct (Sp q w Hw) as [y' [Hy' [_ [_ Cs]]]].
    assert (y' = y) by congruence. subst y'.
    assert (exists a, In a (cc_commands w) /\ cm_idx n = cm_idx a /\
      suppressed (fun k => (cm_idx a < 0)%Z /\ In k (c_forward c) /\ exists z, In z (replaced c) /\ presses z (cm_idx a) k) (cm_out a) (cm_out n)) as [a [Ha [Ea Sa]]].
    { clear - Cs Hn. induction Cs as [|a b la lb [E1 E2] Cs IH]; [contradiction|]. destruct Hn as [<-|Hn].
      - exists a. split; [now left|]. now split.
      - destruct (IH Hn) as [a' [P Q]]. exists a'. split; [now right|exact Q]. }
    eapply suppressed_mentions; [exact Sa|]. split; [lia|]. split; [exact Hk|]. exists z.
    split; [now apply nth_error_In in Hz|]. exists i. rewrite <- Fi. split; [exact Hi|]. split; [congruence|exact Hd].
Qed.

(** ** The configuration is fit for the server *)
Theorem loaded_wf : forall t c cfg, parse t = POk c -> bounded c -> finish_config c = POk cfg ->
  let cs := split_stages (map server_context (cfg_contexts cfg)) [] in
  cs <> [] /\ Forall wf_stage_config cs /\
  Forall (Forall (fun x => NoDup (map cm_idx (cx_commands x)))) cs.
Proof.
  intros t c cfg H B F cs. apply parsed_good in H; [|exact B].
  apply finish_good with (W := True) in F; [|exact H]. destruct F as [Ne Wf Pl C]. specialize (Wf I).
  unfold cs. rewrite split_cut by exact Ne. rewrite !Forall_map. split.
  - intros E. apply map_eq_nil in E. now apply cut_ne in E.
  - rewrite Forall_forall in Wf. split.
    + apply Forall_forall. intros s Hs. pose proof (cut_chain _ C) as Cc. rewrite Forall_forall in Cc. specialize (Cc s Hs).
      split; [split|].
      * rewrite Forall_map. apply Forall_forall. intros x Hx. destruct (Wf x (cut_in _ _ _ Hs Hx)) as [A _ _ _].
        eapply Forall_impl; [|exact A]. intros i [P Q]. split; [now apply fit_ne|exact Q].
      * apply chain_chained in Cc. intros i y Hy Fy. rewrite nth_error_map in Hy.
        destruct (nth_error s i) as [x|] eqn:Hx; [|discriminate]. injection Hy as <-.
        destruct (Cc i x Hx Fy) as [z [Hz _]]. rewrite map_length. apply nth_error_Some. congruence.
      * unfold wf_outputs. rewrite Forall_map. apply Forall_forall. intros x Hx.
        destruct (Wf x (cut_in _ _ _ Hs Hx)) as [_ A D _].
        assert (K : forall o, Ook o -> Forall (wf_out no_none_key) o).
        { intros o [P _]. eapply Forall_impl; [|exact P]. intros e [[Q|Q] R]; split; auto. }
        split; [eapply Forall_impl; [|exact A]; exact K|eapply Forall_impl; [|exact D]; intros m; apply K].
    + apply Forall_forall. intros s Hs. rewrite Forall_map. apply Forall_forall. intros x Hx.
      destruct (Wf x (cut_in _ _ _ Hs Hx)) as [_ _ _ A]. exact A.
Qed.
(** ** Inputs keep the form they are parsed to *)
Theorem loaded_fit : forall t c cfg, parse t = POk c -> bounded c -> finish_config c = POk cfg ->
  Forall (fun cs => forall x i, In x cs -> In i (cx_inputs x) -> fit_input (in_seq i))
    (split_stages (map server_context (cfg_contexts cfg)) []).
Proof.
  intros t c cfg H B F. apply parsed_good in H; [|exact B].
  apply finish_good with (W := True) in F; [|exact H]. destruct F as [Ne Wf Pl C]. specialize (Wf I).
  rewrite split_cut by exact Ne. rewrite Forall_map. rewrite Forall_forall in Wf.
  apply Forall_forall. intros s Hs y i Hy Hi. apply in_map_iff in Hy. destruct Hy as [x [<- Hx]].
  destruct (Wf x (cut_in _ _ _ Hs Hx)) as [A _ _ _]. rewrite Forall_forall in A. now apply A.
Qed.
End Load.
