(** What the client does on a connection of keymapperctl. *)
From Coq Require Import String Ascii List Arith NArith ZArith Bool Lia Sorted.
From Verif Require Import Base Key Text KeyNames ParseSeq Stage Config Serial SerialSpec Client ClientSpec
  ClientProofs ClientContexts ClientControl Ctl CtlSpec.
Import ListNotations.
Local Open Scope N_scope.

Lemma link_snoc s t e : link_of s (t ++ [e]) = link_step s (link_of s t) e.
Proof. unfold link_of. rewrite fold_left_app. reflexivity. Qed.

(** * Names *)
Lemma alias_find n l : alias n l = find_alias n l.
Proof. induction l as [|[m k] l IH]; cbn; [reflexivity|]. rewrite IH. reflexivity. Qed.
Lemma named_key n c : named (cl_aliases c) n = get_virtual_key n c.
Proof. unfold named, get_virtual_key. rewrite alias_find. destruct (get_key_by_name n =? 0); reflexivity. Qed.
Lemma named_virtual l n : named l n = 0 \/ is_virtual_key (named l n) = true.
Proof. unfold named. cbv zeta. destruct (is_virtual_key _) eqn:E; [right; exact E|left; reflexivity]. Qed.

(** * The invariant *)
Definition linked (c : client) (s : N) (w : option owed) : Prop :=
  let x := link_of s (cl_trace c) in
  lk_ok x = true /\ lk_owed x = w /\ lk_names x = cl_aliases c /\
  match get_control s (cl_controls c) with
  | Some t => lk_open x = true /\ lk_armed x = ct_notify t /\ lk_info x = ct_info t
  | None => lk_open x = false /\ w = None
  end.
Definition LI (w : N -> option owed) (c : client) : Prop := forall s, linked c s (w s).
Definition nothing_owed : N -> option owed := fun _ => None.
Definition owes (s : N) (o : option owed) : N -> option owed := fun s' => if s' =? s then o else None.

Lemma LI_ext w w' c : (forall s, w s = w' s) -> LI w c -> LI w' c.
Proof. intros H G s. rewrite <- H. apply G. Qed.

(** * Effects which do not concern connections *)
Definition calm_effect (e : ceffect) : Prop :=
  match e with FLoad _ _ | FWindow _ | FActive _ | FSent _ | FExecute _ | FShow _ => True | _ => False end.
Definition names_step (l : list (text * key)) (e : ceffect) : list (text * key) :=
  match e with FSent (SConfig g) => cfg_aliases g | _ => l end.
Record calm (c c' : client) : Prop := mkCalm {
  m_trace : exists es, cl_trace c' = cl_trace c ++ es /\ Forall calm_effect es /\
              cl_aliases c' = fold_left names_step es (cl_aliases c);
  m_controls : cl_controls c' = cl_controls c
}.
Lemma calm_refl c : calm c c.
Proof. split; [|reflexivity]. exists []. rewrite app_nil_r. auto. Qed.
Lemma calm_trans a b c : calm a b -> calm b c -> calm a c.
Proof.
  intros [(x & Tx & Fx & Nx) A] [(y & Ty & Fy & Ny) B]. split; [|congruence].
  exists (x ++ y). rewrite Ty, Tx, app_assoc, fold_left_app. split; [reflexivity|].
  split; [apply Forall_app; auto|congruence].
Qed.
Lemma calm_emit e c : calm_effect e -> (forall g, e <> FSent (SConfig g)) -> calm c (emit e c).
Proof.
  intros H N. split; [|reflexivity]. exists [e]. split; [reflexivity|]. split; [constructor; [exact H|constructor]|].
  destruct e as [| | | | | |[]| | | | |]; try reflexivity. exfalso. eapply N. reflexivity.
Qed.
Lemma calm_same c c' : cl_trace c' = cl_trace c -> cl_controls c' = cl_controls c ->
  cl_aliases c' = cl_aliases c -> calm c c'.
Proof. intros A B C. split; [|exact B]. exists []. rewrite app_nil_r. auto. Qed.
Lemma calm_link s es : Forall calm_effect es -> forall t,
  let x := link_of s t in
  link_of s (t ++ es) = Link (lk_open x) (lk_armed x) (lk_info x) (lk_owed x)
    (fold_left names_step es (lk_names x)) (lk_asked x) (lk_answered x) (lk_ok x).
Proof.
  induction es as [|e es IH] using rev_ind; intros F t; cbn zeta.
  - rewrite app_nil_r. destruct (link_of s t). reflexivity.
  - apply Forall_app in F. destruct F as [F1 F2]. inversion F2; subst.
    rewrite app_assoc, link_snoc, (IH F1), fold_left_app. cbn [fold_left].
    destruct e as [| | | | | |[]| | | | |]; try contradiction; reflexivity.
Qed.
Lemma LI_calm w c c' : calm c c' -> LI w c -> LI w c'.
Proof.
  intros [(es & T & F & N) C] G s. specialize (G s). unfold linked in *. rewrite T, (calm_link s es F), C, N.
  cbn [lk_ok lk_owed lk_names lk_open lk_armed lk_info]. destruct G as (A & B & D & E).
  split; [exact A|]. split; [exact B|]. split; [congruence|exact E].
Qed.

(** * Controls *)
Lemma get_update s s' f l : (forall x, ct_socket (f x) = ct_socket x) ->
  get_control s (update_control s' f l) =
  option_map (fun x => if s =? s' then f x else x) (get_control s l).
Proof.
  intro H. unfold get_control, update_control. induction l as [|x l IH]; [reflexivity|]. cbn [map find].
  destruct (N.eqb_spec (ct_socket x) s') as [A|A].
  - rewrite H. destruct (N.eqb_spec (ct_socket x) s) as [B|B].
    + cbn [option_map]. subst. rewrite N.eqb_refl. reflexivity.
    + exact IH.
  - destruct (N.eqb_spec (ct_socket x) s) as [B|B].
    + cbn [option_map]. subst. destruct (N.eqb_spec (ct_socket x) s') as [Q|Q]; [contradiction|reflexivity].
    + exact IH.
Qed.
Lemma get_filter_socket s s' l :
  get_control s (List.filter (fun x => negb (ct_socket x =? s')) l) =
  if s =? s' then None else get_control s l.
Proof.
  unfold get_control. induction l as [|x l IH]; cbn [List.filter find]; [destruct (s =? s'); reflexivity|].
  destruct (N.eqb_spec (ct_socket x) s') as [A|A]; cbn [negb].
  - rewrite IH. destruct (N.eqb_spec s s') as [B|B]; [reflexivity|].
    destruct (N.eqb_spec (ct_socket x) s) as [Q|Q]; [congruence|reflexivity].
  - cbn [find]. destruct (N.eqb_spec (ct_socket x) s) as [B|B].
    + destruct (N.eqb_spec s s') as [Q|Q]; [congruence|reflexivity].
    + exact IH.
Qed.
Lemma get_none s l : ~ In s (map ct_socket l) -> get_control s l = None.
Proof.
  intro H. unfold get_control. destruct (find _ l) as [x|] eqn:E; [|reflexivity].
  apply find_some in E. destruct E as [A B]. apply N.eqb_eq in B. exfalso. apply H. rewrite <- B. apply in_map. exact A.
Qed.
Lemma get_sorted s l x : StronglySorted N.lt (map ct_socket l) -> In x l -> ct_socket x = s ->
  get_control s l = Some x.
Proof.
  unfold get_control. induction l as [|y l IH]; intros H A B; [destruct A|]. destruct A as [A|A].
  - subst y. cbn [find]. rewrite (proj2 (N.eqb_eq _ _) B). reflexivity.
  - cbn [map] in H. inversion H as [|? ? H1 H2]; subst. cbn [find].
    rewrite Forall_forall in H2. specialize (H2 (ct_socket x)). 
    destruct (N.eqb_spec (ct_socket y) (ct_socket x)) as [Q|Q]; [|apply IH; auto].
    exfalso. assert (ct_socket y < ct_socket x) by (apply H2; apply in_map; exact A). lia.
Qed.
Lemma get_insert s x l : StronglySorted N.lt (map ct_socket l) ->
  get_control s (insert_control x l) =
  match get_control s l with
  | Some y => Some y
  | None => if s =? ct_socket x then Some x else None
  end.
Proof.
  unfold get_control. induction l as [|y l IH]; intro H; cbn [insert_control find].
  - rewrite N.eqb_sym. reflexivity.
  - cbn [map] in H. inversion H as [|? ? H1 H2]; subst. rewrite Forall_forall in H2.
    destruct (N.ltb_spec (ct_socket x) (ct_socket y)) as [LT|GE].
    + cbn [find]. rewrite (N.eqb_sym (ct_socket x) s). destruct (N.eqb_spec s (ct_socket x)) as [Q|Q].
      * destruct (N.eqb_spec (ct_socket y) s) as [R|R]; [lia|].
        destruct (find (fun z => ct_socket z =? s) l) as [z|] eqn:E; [|reflexivity].
        apply find_some in E. destruct E as [A B]. apply N.eqb_eq in B.
        assert (ct_socket y < ct_socket z) by (apply H2; apply in_map; exact A). lia.
      * destruct (ct_socket y =? s); [reflexivity|]. destruct (find _ l); reflexivity.
    + destruct (N.eqb_spec (ct_socket x) (ct_socket y)) as [E|E].
      * cbn [find]. destruct (N.eqb_spec (ct_socket y) s) as [R|R]; [reflexivity|].
        destruct (N.eqb_spec s (ct_socket x)) as [Q|Q]; [congruence|]. destruct (find _ l); reflexivity.
      * cbn [find]. destruct (ct_socket y =? s); [reflexivity|]. apply IH. exact H1.
Qed.

(** * Answers *)
Lemma answer_link w s o m c : LI w c -> w s = Some o -> pays o m = true ->
  LI (fun s' => if s' =? s then None else w s') (answer s m c).
Proof.
  intros G W P s'. unfold answer. pose proof (G s') as Gs. unfold linked in *. cbn [emit cl_trace cl_controls cl_aliases].
  rewrite link_snoc. cbn [link_step]. rewrite (N.eqb_sym s s'). destruct (N.eqb_spec s' s) as [E|E].
  - subst s'. rewrite W in Gs. destruct Gs as (A & B & D & F). cbn [lk_ok lk_owed lk_names lk_open lk_armed lk_info].
    rewrite A, B, P. destruct (get_control s (cl_controls c)) as [x|].
    + destruct F as (F1 & F2 & F3). rewrite F1. repeat split; assumption.
    + destruct F as [_ F]. discriminate F.
  - exact Gs.
Qed.
Lemma state_link w s k c : LI w c -> w s = Some (OState k) ->
  LI (fun s' => if s' =? s then None else w s') (send_virtual_key_state s k c).
Proof.
  intros G W. unfold send_virtual_key_state, get_virtual_key_state.
  assert (A : forall st c', pays (OState k) (AVirtual k st) = true -> cl_trace c' = cl_trace c -> cl_controls c' = cl_controls c -> cl_aliases c' = cl_aliases c ->
              LI (fun s' => if s' =? s then None else w s') (answer s (AVirtual k st) c')).
  { intros st c' P T C N. apply (answer_link w s (OState k)); [|exact W|exact P].
    eapply LI_calm; [|exact G]. apply calm_same; assumption. }
  assert (P : forall st, match st with Down | Up => is_virtual_key k | Not => negb (is_virtual_key k) | _ => false end = true ->
              pays (OState k) (AVirtual k st) = true) by (intros st H; cbn [pays]; rewrite N.eqb_refl; exact H).
  destruct (is_virtual_key k) eqn:V; [|apply A; [apply P; reflexivity|reflexivity..]].
  destruct (nth_error _ _) as [b|]; (apply A; [apply P|reflexivity..]); [destruct b|]; reflexivity.
Qed.
Lemma owes_done s o s' : (if s' =? s then None else owes s o s') = nothing_owed s'.
Proof. unfold owes, nothing_owed. destruct (s' =? s); reflexivity. Qed.
Lemma state_done s k c : LI (owes s (Some (OState k))) c -> LI nothing_owed (send_virtual_key_state s k c).
Proof.
  intro G. eapply LI_ext; [apply (owes_done s (Some (OState k)))|]. apply state_link; [exact G|].
  unfold owes. rewrite N.eqb_refl. reflexivity.
Qed.
Lemma bool_done s b c : LI (owes s (Some ODone)) c -> LI nothing_owed (answer_bool s b c).
Proof.
  intro G. eapply LI_ext; [apply (owes_done s (Some ODone))|]. apply (answer_link _ s ODone); [exact G| |destruct b; reflexivity].
  unfold owes. rewrite N.eqb_refl. reflexivity.
Qed.

(** A request arrives. *)
Lemma asked_link s m c l : LI nothing_owed c -> get_control s (cl_controls c) <> None ->
  (forall s', get_control s' l =
     option_map (fun x => if s' =? s then
       Ctl (ct_socket x) (ct_id x)
         (match m with QNotify n => if get_virtual_key n c =? 0 then ct_notify x else get_virtual_key n c
                     | _ => ct_notify x end)
         (match m with QNextKey => true | _ => ct_info x end) else x) (get_control s' (cl_controls c))) ->
  LI (owes s (asks_for (cl_aliases c) m)) (c_controls l (emit (FAsked s m) c)).
Proof.
  intros G O HL s'. pose proof (G s') as Gs. unfold linked in *. cbn [emit c_controls cl_trace cl_controls cl_aliases].
  rewrite link_snoc, HL. cbn [link_step]. unfold owes. rewrite (N.eqb_sym s s'). destruct (N.eqb_spec s' s) as [E|E].
  - subst s'. destruct Gs as (A & B & D & F). cbn [lk_ok lk_owed lk_names lk_open lk_armed lk_info].
    destruct (get_control s (cl_controls c)) as [x|]; [|contradiction]. cbn [option_map].
    destruct F as (F1 & F2 & F3). rewrite A, B, D, F1, F2, F3. cbn [andb ct_notify ct_info nothing_owed].
    split; [reflexivity|]. split; [reflexivity|]. split; [reflexivity|]. split; [reflexivity|].
    rewrite <- ?named_key. destruct m; rewrite ?named_key; split; reflexivity.
  - destruct Gs as (A & B & D & F). split; [exact A|]. split; [exact B|]. split; [exact D|].
    destruct (get_control s' (cl_controls c)); [exact F|]. exact F.
Qed.
Lemma asked_plain s m c : LI nothing_owed c -> get_control s (cl_controls c) <> None ->
  match m with QNotify n => get_virtual_key n c = 0 | QNextKey => False | _ => True end ->
  LI (owes s (asks_for (cl_aliases c) m)) (emit (FAsked s m) c).
Proof.
  intros G O M. 
  assert (Q : LI (owes s (asks_for (cl_aliases c) m)) (c_controls (cl_controls c) (emit (FAsked s m) c))).
  { apply asked_link; [exact G|exact O|]. intro s'. destruct (get_control s' (cl_controls c)) as [[a b d e]|]; [|reflexivity].
    cbn [option_map]. f_equal. destruct (s' =? s); [|reflexivity]. destruct m; try reflexivity; [rewrite M; reflexivity|contradiction]. }
  eapply LI_calm; [|exact Q]. apply calm_same; reflexivity.
Qed.
Lemma owes_none s s' : owes s None s' = nothing_owed s'.
Proof. unfold owes, nothing_owed. destruct (s' =? s); reflexivity. Qed.

(** * Reports *)
Lemma notify_link k l : is_virtual_key k = true -> forall w c,
  NoDup (map ct_socket l) ->
  (forall x, In x l -> ct_notify x = k -> w (ct_socket x) = Some (OState k)) ->
  LI w c ->
  LI (fun s => if existsb (fun x => (ct_socket x =? s) && (ct_notify x =? k)) l then None else w s)
     (snd (notify_loop k l c)) /\
  cl_controls (snd (notify_loop k l c)) = cl_controls c /\
  fst (notify_loop k l c) =
    map (fun x => if ct_notify x =? k then Ctl (ct_socket x) (ct_id x) 0 (ct_info x) else x) l.
Proof.
  intro VK. induction l as [|x l IH]; intros w c ND HW G; cbn [notify_loop existsb map].
  - split; [exact G|]. split; reflexivity.
  - cbn [map] in ND. inversion ND as [|? ? N1 N2]; subst. destruct (N.eqb_spec (ct_notify x) k) as [E|E].
    + assert (G1 := state_link w (ct_socket x) k c G (HW x (or_introl eq_refl) E)).
      set (c1 := send_virtual_key_state (ct_socket x) k c) in *.
      assert (C1 : cl_controls c1 = cl_controls c).
      { unfold c1, send_virtual_key_state, get_virtual_key_state. rewrite VK.
        destruct (nth_error _ _); reflexivity. }
      clearbody c1.
      destruct (fun H => IH _ _ N2 H G1) as (I1 & I2 & I3).
      { intros y Hy Ey. cbn beta. destruct (N.eqb_spec (ct_socket y) (ct_socket x)) as [Q|Q];
        [exfalso; apply N1; rewrite <- Q; apply in_map; exact Hy|apply HW; [right; exact Hy|exact Ey]]. }
      destruct (notify_loop k l c1) as [r c2]. cbn [fst snd] in *.
      split; [|split; [congruence|f_equal; exact I3]].
      eapply LI_ext; [|exact I1]. intro s. cbn beta. rewrite andb_true_r. rewrite (N.eqb_sym s).
      destruct (ct_socket x =? s); cbn [orb]; [destruct (existsb _ l); reflexivity|reflexivity].
    + destruct (IH w c N2 ltac:(intros y Hy; apply HW; right; exact Hy) G) as (I1 & I2 & I3).
      destruct (notify_loop k l c) as [r c2]. cbn [fst snd] in *.
      split; [|split; [exact I2|f_equal; exact I3]].
      eapply LI_ext; [|exact I1]. intro s. cbn beta. rewrite andb_false_r. reflexivity.
Qed.
Lemma sorted_nodup l : StronglySorted N.lt l -> NoDup l.
Proof.
  induction 1 as [|x l H IH F]; constructor; [|exact IH]. rewrite Forall_forall in F. intro Q.
  specialize (F _ Q). lia.
Qed.
Lemma get_map s f l : (forall x, ct_socket (f x) = ct_socket x) ->
  get_control s (map f l) = option_map f (get_control s l).
Proof.
  intro H. unfold get_control. induction l as [|x l IH]; [reflexivity|]. cbn [map find]. rewrite H.
  destruct (ct_socket x =? s); [reflexivity|exact IH].
Qed.
Lemma exists_get l s (f : control -> bool) : NoDup (map ct_socket l) ->
  existsb (fun x => (ct_socket x =? s) && f x) l =
  match get_control s l with Some x => f x | None => false end.
Proof.
  unfold get_control. induction l as [|x l IH]; intro ND; [reflexivity|]. cbn [map existsb find] in *.
  inversion ND as [|? ? N1 N2]; subst. destruct (N.eqb_spec (ct_socket x) s) as [E|E]; [|apply IH; exact N2].
  cbn [andb]. rewrite (IH N2). destruct (find _ l) as [y|] eqn:Q; [|apply orb_false_r].
  apply find_some in Q. destruct Q as [A B]. apply N.eqb_eq in B. exfalso. apply N1. rewrite E, <- B.
  apply in_map. exact A.
Qed.

Lemma changed_link k st c : StronglySorted N.lt (map ct_socket (cl_controls c)) -> LI nothing_owed c ->
  LI nothing_owed (on_virtual_key_state_changed k st (emit (FGot (DVirtual k st)) c)).
Proof.
  intros SO G. unfold on_virtual_key_state_changed. set (g := emit (FGot (DVirtual k st)) c).
  destruct (is_virtual_key k) eqn:VK.
  2: { intro s. specialize (G s). unfold linked in *. cbn [g emit cl_trace cl_controls cl_aliases].
       rewrite link_snoc. cbn [link_step]. rewrite VK, andb_false_r. exact G. }
  set (c1 := if Nat.ltb _ _ then _ else _).
  assert (C1 : cl_controls c1 = cl_controls c /\ cl_trace c1 = cl_trace c ++ [FGot (DVirtual k st)] /\
               cl_aliases c1 = cl_aliases c).
  { unfold c1. destruct (Nat.ltb _ _); repeat split. }
  destruct C1 as (C1 & T1 & A1). clearbody c1. clear g. rewrite C1.
  pose (w := fun s => match get_control s (cl_controls c) with
                      | Some x => if ct_notify x =? k then Some (OState k) else None
                      | None => None end).
  pose (l1 := map (fun x => if ct_notify x =? k then Ctl (ct_socket x) (ct_id x) 0 (ct_info x) else x) (cl_controls c)).
  assert (G1 : LI w (c_controls l1 c1)).
  { intro s. specialize (G s). unfold linked in *. cbn [c_controls cl_trace cl_controls cl_aliases].
    unfold w, l1. rewrite get_map by (intro x; destruct (ct_notify x =? k); reflexivity).
    rewrite T1, link_snoc. cbn [link_step]. rewrite VK, A1. destruct G as (A & B & D & F).
    destruct (get_control s (cl_controls c)) as [x|]; cbn [option_map].
    - destruct F as (F1 & F2 & F3). rewrite F1, F2. cbn [andb]. rewrite andb_true_r.
      destruct (ct_notify x =? k).
      + cbn [lk_ok lk_owed lk_names lk_open lk_armed lk_info ct_notify ct_info]. rewrite A, B, ?F1.
        repeat split; assumption.
      + repeat split; assumption.
    - destruct F as (F1 & F2). rewrite F1. cbn [andb]. repeat split; assumption. }
  assert (ND := sorted_nodup _ SO).
  (* the loop runs over the old list with the old controls in place *)
  assert (R : forall l c a, notify_loop k l (c_controls a c) =
     (fst (notify_loop k l c), c_controls a (snd (notify_loop k l c)))).
  { clear. induction l as [|x l IH]; intros c a; cbn [notify_loop]; [reflexivity|].
    destruct (ct_notify x =? k).
    - assert (Q : send_virtual_key_state (ct_socket x) k (c_controls a c) =
                  c_controls a (send_virtual_key_state (ct_socket x) k c)).
      { unfold send_virtual_key_state, get_virtual_key_state. cbn [c_controls cl_down].
        destruct (is_virtual_key k); [|reflexivity]. destruct (nth_error _ _); reflexivity. }
      rewrite Q, IH. destruct (notify_loop k l _). reflexivity.
    - rewrite IH. destruct (notify_loop k l c). reflexivity. }
  destruct (notify_link k (cl_controls c) VK w (c_controls l1 c1) ND) as (I1 & I2 & I3); [|exact G1|].
  { intros x Hx Ex. unfold w. rewrite (get_sorted _ _ x SO Hx eq_refl), Ex, N.eqb_refl. reflexivity. }
  rewrite R in I1, I3. cbn [fst snd] in I1, I3.
  destruct (notify_loop k (cl_controls c) c1) as [r c2]. cbn [fst snd] in *. fold l1 in I3. subst r.
  eapply LI_ext; [|exact I1]. intro s. cbn beta.
  rewrite (exists_get (cl_controls c) s (fun x => ct_notify x =? k) ND). unfold w, nothing_owed.
  destruct (get_control s (cl_controls c)) as [x|]; [destruct (ct_notify x =? k)|]; reflexivity.
Qed.

(** * Information about the next key *)
Lemma reply_link t l : t <> [] -> forall w c,
  NoDup (map ct_socket l) ->
  (forall x, In x l -> ct_info x = true -> w (ct_socket x) = Some OInfo) ->
  LI w c ->
  LI (fun s => if existsb (fun x => (ct_socket x =? s) && ct_info x) l then None else w s)
     (snd (reply_loop t l c)) /\
  cl_controls (snd (reply_loop t l c)) = cl_controls c /\
  snd (fst (reply_loop t l c)) = map (fun x => Ctl (ct_socket x) (ct_id x) (ct_notify x) false) l.
Proof.
  intro NE. induction l as [|x l IH]; intros w c ND HW G; cbn [reply_loop existsb map].
  - split; [exact G|]. split; reflexivity.
  - cbn [map] in ND. inversion ND as [|? ? N1 N2]; subst. destruct (ct_info x) eqn:E.
    + assert (G1 := answer_link w (ct_socket x) OInfo (ANextKeyInfo t) c G (HW x (or_introl eq_refl) E)
                      ltac:(destruct t; [destruct (NE eq_refl)|reflexivity])).
      set (c1 := answer (ct_socket x) (ANextKeyInfo t) c) in *.
      assert (C1 : cl_controls c1 = cl_controls c) by reflexivity. clearbody c1.
      destruct (fun H => IH _ _ N2 H G1) as (I1 & I2 & I3).
      { intros y Hy Ey. cbn beta. destruct (N.eqb_spec (ct_socket y) (ct_socket x)) as [Q|Q];
        [exfalso; apply N1; rewrite <- Q; apply in_map; exact Hy|apply HW; [right; exact Hy|exact Ey]]. }
      destruct (reply_loop t l c1) as [[b r] c2]. cbn [fst snd] in *.
      split; [|split; [congruence|f_equal; exact I3]].
      eapply LI_ext; [|exact I1]. intro s. cbn beta. rewrite andb_true_r. rewrite (N.eqb_sym s).
      destruct (ct_socket x =? s); cbn [orb]; [destruct (existsb _ l); reflexivity|reflexivity].
    + destruct (IH w c N2 ltac:(intros y Hy; apply HW; right; exact Hy) G) as (I1 & I2 & I3).
      destruct (reply_loop t l c) as [[b r] c2]. cbn [fst snd] in *.
      split; [|split; [exact I2|f_equal; exact I3]].
      eapply LI_ext; [|exact I1]. intro s. cbn beta. rewrite andb_false_r. reflexivity.
Qed.
Lemma info_link k name id t c : t <> [] -> StronglySorted N.lt (map ct_socket (cl_controls c)) -> LI nothing_owed c ->
  let '(b, l, c') := reply_loop t (cl_controls c) (emit (FGot (DNextKeyInfo k name id)) c) in
  LI nothing_owed (c_controls l c').
Proof.
  intros NE SO G. set (c1 := emit _ c).
  pose (w := fun s => match get_control s (cl_controls c) with
                      | Some x => if ct_info x then Some OInfo else None
                      | None => None end).
  pose (l1 := map (fun x => Ctl (ct_socket x) (ct_id x) (ct_notify x) false) (cl_controls c)).
  assert (G1 : LI w (c_controls l1 c1)).
  { intro s. specialize (G s). unfold linked in *. cbn [c1 emit c_controls cl_trace cl_controls cl_aliases].
    unfold w, l1. rewrite get_map by reflexivity.
    rewrite link_snoc. cbn [link_step]. destruct G as (A & B & D & F).
    destruct (get_control s (cl_controls c)) as [x|]; cbn [option_map].
    - destruct F as (F1 & F2 & F3). rewrite F1, F3. cbn [andb].
      destruct (ct_info x) eqn:EX.
      + cbn [lk_ok lk_owed lk_names lk_open lk_armed lk_info ct_notify ct_info]. rewrite A, B, ?F1.
        repeat split; assumption.
      + cbn [ct_notify ct_info]. repeat split; assumption.
    - destruct F as (F1 & F2). rewrite F1. cbn [andb]. repeat split; assumption. }
  assert (ND := sorted_nodup _ SO).
  assert (R : forall l c a, reply_loop t l (c_controls a c) =
     (fst (reply_loop t l c), c_controls a (snd (reply_loop t l c)))).
  { clear. induction l as [|x l IH]; intros c a; cbn [reply_loop]; [reflexivity|].
    destruct (ct_info x).
    - change (answer (ct_socket x) (ANextKeyInfo t) (c_controls a c))
        with (c_controls a (answer (ct_socket x) (ANextKeyInfo t) c)).
      rewrite IH. destruct (reply_loop t l _) as [[? ?] ?]. reflexivity.
    - rewrite IH. destruct (reply_loop t l c) as [[? ?] ?]. reflexivity. }
  destruct (reply_link t (cl_controls c) NE w (c_controls l1 c1) ND) as (I1 & I2 & I3); [|exact G1|].
  { intros x Hx Ex. unfold w. rewrite (get_sorted _ _ x SO Hx eq_refl), Ex. reflexivity. }
  rewrite R in I1, I3. cbn [fst snd] in I1, I3. clearbody c1.
  destruct (reply_loop t (cl_controls c) c1) as [[b r] c2]. cbn [fst snd] in *. fold l1 in I3. subst r.
  eapply LI_ext; [|exact I1]. intro s. cbn beta.
  rewrite (exists_get (cl_controls c) s ct_info ND). unfold w, nothing_owed.
  destruct (get_control s (cl_controls c)) as [x|]; [destruct (ct_info x)|]; reflexivity.
Qed.

(** * Connections *)
Lemma accept_link s c : StronglySorted N.lt (map ct_socket (cl_controls c)) -> LI nothing_owed c ->
  LI nothing_owed (accept_control s c).
Proof.
  intros SO G s'. specialize (G s'). unfold linked, accept_control in *.
  cbn [emit c_controls cl_trace cl_controls cl_aliases]. rewrite link_snoc, (get_insert s' _ _ SO). cbn [link_step ct_socket].
  destruct G as (A & B & D & F). rewrite (N.eqb_sym s s').
  destruct (get_control s' (cl_controls c)) as [x|].
  - destruct F as (F1 & F2 & F3). rewrite F1. cbn [negb]. rewrite andb_false_r. repeat split; assumption.
  - destruct F as (F1 & F2). rewrite F1. cbn [negb]. rewrite andb_true_r. destruct (s' =? s).
    + repeat split; assumption.
    + repeat split; assumption.
Qed.
Lemma close_link s c : LI nothing_owed c ->
  LI nothing_owed (emit (FClosed s) (c_controls (List.filter (fun x => negb (ct_socket x =? s)) (cl_controls c)) c)).
Proof.
  intros G s'. specialize (G s'). unfold linked in *.
  cbn [emit c_controls cl_trace cl_controls cl_aliases]. rewrite link_snoc, get_filter_socket. cbn [link_step].
  destruct G as (A & B & D & F). rewrite (N.eqb_sym s s'). destruct (s' =? s); repeat split; assumption.
Qed.
Lemma lost_link c : LI nothing_owed c -> LI nothing_owed (on_server_disconnected c).
Proof.
  intros G s. specialize (G s). unfold linked, on_server_disconnected in *.
  cbn [emit c_controls c_aliases c_down cl_trace cl_controls cl_aliases]. rewrite link_snoc. cbn [link_step].
  destruct G as (A & B & D & F). repeat split; assumption.
Qed.

(** Closing the connections with an instance id. *)
Lemma closed_link s l : forall t,
  let x := link_of s t in
  link_of s (t ++ map (fun x => FClosed (ct_socket x)) l) =
  if existsb (fun y => ct_socket y =? s) l
  then Link false 0 false None (lk_names x) (lk_asked x) (lk_answered x) (lk_ok x) else x.
Proof.
  induction l as [|y l IH]; intro t; cbn zeta; cbn [map existsb].
  - rewrite app_nil_r. reflexivity.
  - change (t ++ FClosed (ct_socket y) :: map (fun x => FClosed (ct_socket x)) l)
      with (t ++ [FClosed (ct_socket y)] ++ map (fun x => FClosed (ct_socket x)) l).
    rewrite app_assoc, IH, link_snoc. cbn [link_step].
    destruct (ct_socket y =? s); cbn [orb].
    + destruct (existsb _ l); reflexivity.
    + reflexivity.
Qed.
Lemma instance_link s id o c : StronglySorted N.lt (map ct_socket (cl_controls c)) ->
  LI (owes s o) c -> LI (owes s o) (on_set_instance_id s id c).
Proof.
  intros SO G. unfold on_set_instance_id.
  destruct (get_control s (cl_controls c)) as [x|] eqn:GC; [|exact G].
  destruct (text_eqb (ct_id x) id) eqn:EQ; [exact G|].
  assert (U : forall c', LI (owes s o) c' -> LI (owes s o)
     (c_controls (update_control s (fun x => Ctl (ct_socket x) id (ct_notify x) (ct_info x)) (cl_controls c')) c')).
  { intros c' G' s'. specialize (G' s'). unfold linked in *. cbn [c_controls cl_trace cl_controls cl_aliases].
    rewrite get_update by reflexivity. destruct (get_control s' (cl_controls c')) as [y|]; [|exact G'].
    cbn [option_map]. destruct (s' =? s); exact G'. }
  apply U. unfold disconnect_by_instance_id. destruct (trivial_id id); [exact G|].
  set (gone := List.filter (fun x => text_eqb (ct_id x) id) (cl_controls c)).
  set (left_ := List.filter (fun x => negb (text_eqb (ct_id x) id)) (cl_controls c)).
  destruct (closed_trace gone (c_controls left_ c)) as (T1 & T2 & T3 & T4).
  assert (A1 : cl_aliases (fold_left (fun c x => emit (FClosed (ct_socket x)) c) gone (c_controls left_ c)) = cl_aliases c).
  { assert (Q : forall l c, cl_aliases (fold_left (fun c x => emit (FClosed (ct_socket x)) c) l c) = cl_aliases c).
    { clear. induction l as [|y l IH]; intro c; [reflexivity|]. cbn [fold_left]. rewrite IH. reflexivity. }
    rewrite Q. reflexivity. }
  set (c2 := fold_left _ gone _) in *. clearbody c2. cbn [c_controls cl_trace cl_controls] in T1, T2.
  intro s'. pose proof (G s') as Gs. unfold linked in *. rewrite T1, T2, A1, closed_link.
  destruct Gs as (A & B & D & F).
  assert (ND := sorted_nodup _ SO).
  assert (EX : existsb (fun y => ct_socket y =? s') gone =
               match get_control s' (cl_controls c) with Some y => text_eqb (ct_id y) id | None => false end).
  { rewrite <- (exists_get (cl_controls c) s' (fun y => text_eqb (ct_id y) id) ND). unfold gone.
    clear. induction (cl_controls c) as [|y l IH]; [reflexivity|]. cbn [List.filter existsb].
    destruct (text_eqb (ct_id y) id); cbn [existsb]; rewrite IH.
    - rewrite andb_true_r. reflexivity.
    - rewrite andb_false_r. reflexivity. }
  assert (GL : get_control s' left_ =
               match get_control s' (cl_controls c) with
               | Some y => if text_eqb (ct_id y) id then None else Some y | None => None end).
  { unfold left_. clear - ND. unfold get_control. induction (cl_controls c) as [|y l IH]; [reflexivity|].
    cbn [map] in ND. inversion ND as [|? ? N1 N2]; subst. cbn [List.filter find].
    destruct (N.eqb_spec (ct_socket y) s') as [E|E].
    - destruct (text_eqb (ct_id y) id); cbn [negb].
      + destruct (find _ _) as [z|] eqn:Q; [|reflexivity]. apply find_some in Q. destruct Q as [Q1 Q2].
        apply filter_In in Q1. apply N.eqb_eq in Q2. exfalso. apply N1. rewrite E, <- Q2. apply in_map. apply Q1.
      + cbn [find]. rewrite (proj2 (N.eqb_eq _ _) E). reflexivity.
    - destruct (text_eqb (ct_id y) id); cbn [negb]; [exact (IH N2)|]. cbn [find].
      destruct (N.eqb_spec (ct_socket y) s') as [Q|_]; [contradiction|]. exact (IH N2). }
  rewrite EX, GL. destruct (get_control s' (cl_controls c)) as [y|] eqn:GY.
  - destruct (text_eqb (ct_id y) id) eqn:EY.
    + assert (NS : s' <> s) by (intro Q; subst s'; congruence).
      cbn [lk_ok lk_owed lk_names lk_open lk_armed lk_info]. unfold owes.
      destruct (N.eqb_spec s' s) as [Q|_]; [contradiction|]. repeat split; assumption.
    + repeat split; try assumption; apply F.
  - repeat split; try assumption; apply F.
Qed.

(** * All operations *)
Section Client.
Variable search : text -> text -> bool.
Variable typer : text -> list stroke.
Variable key_name : key -> option text.
Variable system : text.
Variable sent : nat -> bool.
Variable focus : nat -> option window.
Variable disk : nat -> files.

Notation send := (send sent).
Notation update_file := (update_file disk).
Notation load_config := (load_config disk).
Notation update_active_contexts := (update_active_contexts search focus).
Notation send_config := (send_config search sent focus).
Notation on_control_message := (on_control_message search typer sent focus disk).
Notation on_server_message := (on_server_message key_name system).
Notation loop_turn := (loop_turn search typer key_name system sent focus disk).
Notation client_step := (client_step search typer key_name system sent focus disk).
Notation client_run := (client_run search typer key_name system sent focus disk).
Notation client_main := (client_main search typer key_name system sent focus disk).

Lemma calm_send m c : (forall g, m <> SConfig g) -> calm c (snd (send m c)).
Proof.
  intro NC. unfold Client.send. destruct (negb (cl_broken c) && sent (cl_sends c)); cbn [snd].
  - eapply calm_trans; [|apply calm_emit; [exact I|]].
    + apply calm_same; reflexivity.
    + intros g Q. injection Q as Q. exact (NC g Q).
  - apply calm_same; reflexivity.
Qed.
Lemma calm_update c : calm c (snd (update_active_contexts c)).
Proof.
  unfold Client.update_active_contexts. destruct (cl_active c); cbn [negb]; [|apply calm_refl].
  set (c1 := match focus (cl_focus c) with
             | Some w => emit (FWindow w) (c_window w (S (cl_focus c)) c)
             | None => c_window (cl_window c) (S (cl_focus c)) c
             end).
  assert (K : calm c c1).
  { unfold c1. destruct (focus (cl_focus c)) as [w|]; [|apply calm_same; reflexivity].
    eapply (calm_trans _ (c_window w (S (cl_focus c)) c)); [apply calm_same; reflexivity|apply calm_emit; [exact I|discriminate]]. }
  clearbody c1. cbv zeta.
  destruct (match focus (cl_focus c) with Some _ => false | None => _ end); [exact K|].
  destruct (zlist_eqb _ _); [exact K|]. cbn [snd]. eapply calm_trans; [exact K|apply calm_same; reflexivity].
Qed.
Lemma calm_config c : calm c (snd (send_config c)).
Proof.
  unfold Client.send_config, Client.send. destruct (negb (cl_broken c) && sent (cl_sends c)); cbn [negb snd].
  2: { apply calm_same; reflexivity. }
  set (c2 := c_contexts _ _). assert (G2 : calm c c2).
  { split; [|reflexivity]. exists [FSent (SConfig (cl_config c))]. split; [reflexivity|].
    split; [constructor; [exact I|constructor]|]. reflexivity. }
  clearbody c2. destruct (cl_active c2); [|exact G2].
  eapply calm_trans; [exact G2|]. eapply calm_trans; [apply calm_update|]. apply calm_send. discriminate.
Qed.
Lemma calm_toggle c : calm c (toggle_active search sent focus c).
Proof.
  unfold toggle_active. set (c1 := emit _ _).
  assert (G : calm c c1).
  { unfold c1. eapply (calm_trans c (c_active (negb (cl_active c)) c)); [|apply calm_emit; [exact I|discriminate]].
    apply calm_same; reflexivity. }
  eapply calm_trans; [|apply calm_send; discriminate]. eapply calm_trans; [exact G|].
  destruct (cl_active c1); [apply calm_update|]. apply calm_same; reflexivity.
Qed.
Lemma calm_loaded name r c : calm c (loaded name r c).
Proof. destruct r; [apply calm_emit; [exact I|discriminate]|apply calm_refl]. Qed.
Lemma calm_file check c : calm c (snd (update_file check c)).
Proof.
  unfold Client.update_file. destruct (file_update _ _ _) as [r f]. cbn [snd].
  eapply calm_trans; [|apply calm_loaded]. apply calm_same; reflexivity.
Qed.
Lemma calm_load name c : calm c (snd (load_config name c)).
Proof.
  unfold Client.load_config. destruct (text_eqb _ _); [apply calm_file|].
  destruct (swap_recent name (cl_file c) (cl_recent c)) as [[f l]|].
  - eapply calm_trans; [|apply calm_file]. apply calm_same; reflexivity.
  - destruct (file_load _ _) as [r f]. set (c1 := loaded _ _ _).
    assert (K : calm c c1).
    { unfold c1. eapply calm_trans; [|apply calm_loaded]. apply calm_same; reflexivity. }
    clearbody c1. destruct (match r with Some ok => ok | None => false end); cbn [snd].
    + eapply calm_trans; [exact K|]. destruct (cf_name (cl_file c1)); apply calm_same; reflexivity.
    + destruct (cf_name (cl_file c1)); [|exact K]. eapply calm_trans; [exact K|apply calm_same; reflexivity].
Qed.

Definition LW (c : client) : Prop :=
  StronglySorted N.lt (map ct_socket (cl_controls c)) /\ LI nothing_owed c.

Lemma info_nonempty k name id w : key_info_text key_name system k name id w <> [].
Proof.
  intro Q. apply (f_equal (@length ascii)) in Q. unfold key_info_text in Q.
  set (x := match key_name k with Some n => _ | None => _ end) in Q.
  match type of Q with length (removelast ?l) = _ => assert (L2 : (2 <= length l)%nat); [|set (z := l) in *; clearbody z] end.
  { rewrite flat_map_app, app_length. cbn [flat_map app]. rewrite app_length, app_length. cbn [length T list_ascii_of_string app]. lia. }
  destruct z as [|a [|b z]]; cbn [length] in L2; try lia. change (removelast (a :: b :: z)) with (a :: removelast (b :: z)) in Q. discriminate Q.
Qed.
Lemma server_link m c : inv c -> LI nothing_owed c -> LI nothing_owed (on_server_message m c).
Proof.
  intros HI G. pose proof (w_sorted _ (proj2 HI)) as SO. unfold Client.on_server_message. destruct m as [i|k st|k name id].
  - assert (G1 : LI nothing_owed (emit (FGot (DAction i)) c)).
    { intro s. specialize (G s). unfold linked in *. cbn [emit cl_trace cl_controls cl_aliases]. rewrite link_snoc. exact G. }
    destruct (0 <=? i)%Z; [|exact G1]. destruct (nth_error _ _); [|exact G1].
    eapply LI_calm; [apply calm_emit; [exact I|discriminate]|exact G1].
  - apply changed_link; assumption.
  - pose proof (info_link k name id (key_info_text key_name system k name id
      (cl_window (emit (FGot (DNextKeyInfo k name id)) c))) c (info_nonempty _ _ _ _) SO G) as L.
    change (cl_controls (emit (FGot (DNextKeyInfo k name id)) c)) with (cl_controls c).
    destruct (reply_loop _ (cl_controls c) _) as [[b l] c2].
    destruct b; [exact L|]. eapply LI_calm; [apply calm_emit; [exact I|discriminate]|exact L].
Qed.
Lemma control_link s m c : inv c -> get_control s (cl_controls c) <> None -> LI nothing_owed c ->
  LI nothing_owed (on_control_message s m c).
Proof.
  intros HI O G. pose proof (w_sorted _ (proj2 HI)) as SO. unfold Client.on_control_message.
  destruct m as [n|n st|n|id|n| |t|t].
  - apply state_done. change (get_virtual_key n (emit (FAsked s (QGet n)) c)) with (get_virtual_key n c).
    pose proof (asked_plain s (QGet n) c G O I) as A. cbn [asks_for] in A. rewrite named_key in A. exact A.
  - cbv zeta. apply state_done. change (get_virtual_key n (emit (FAsked s (QSet n st)) c)) with (get_virtual_key n c).
    eapply LI_calm; [apply calm_send; discriminate|].
    pose proof (asked_plain s (QSet n st) c G O I) as A. cbn [asks_for] in A. rewrite named_key in A. exact A.
  - unfold on_toggle_requested. change (get_virtual_key n (emit (FAsked s (QNotify n)) c)) with (get_virtual_key n c).
    destruct (get_virtual_key n c =? 0) eqn:E.
    + pose proof E as E0. apply N.eqb_eq in E0. rewrite E0. apply state_done.
      pose proof (asked_plain s (QNotify n) c G O E0) as A. cbn [asks_for] in A. rewrite named_key, E in A. exact A.
    + change (cl_controls (emit (FAsked s (QNotify n)) c)) with (cl_controls c).
      eapply LI_ext; [apply (owes_none s)|].
      pose proof (asked_link s (QNotify n) c (update_control s (fun x => Ctl (ct_socket x) (ct_id x) (get_virtual_key n c) (ct_info x)) (cl_controls c)) G O) as A.
      cbn [asks_for] in A. rewrite named_key, E in A. apply A. intro s'. rewrite get_update by reflexivity. reflexivity.
  - apply state_done. apply instance_link; [exact SO|].
    exact (asked_plain s (QInstance id) c G O I).
  - pose proof (asked_plain s (QConfig n) c G O I) as A. cbn [asks_for] in A.
    set (c1 := emit _ c) in *. clearbody c1. pose proof (calm_load n c1) as K.
    destruct (load_config n c1) as [ok c2]. cbn [snd] in K.
    assert (G2 := LI_calm _ _ _ K A). destruct ok; [|apply bool_done; exact G2].
    pose proof (calm_config c2) as K2. destruct (send_config c2) as [ok c3]. cbn [snd] in K2.
    apply bool_done. eapply LI_calm; eassumption.
  - cbv zeta. eapply LI_calm; [apply calm_send; discriminate|]. unfold on_next_key_requested.
    change (cl_controls (emit (FAsked s QNextKey) c)) with (cl_controls c).
    eapply LI_ext; [apply (owes_none s)|].
    pose proof (asked_link s QNextKey c (update_control s (fun x => Ctl (ct_socket x) (ct_id x) (ct_notify x) true) (cl_controls c)) G O) as A.
    apply A. intro s'. rewrite get_update by reflexivity. reflexivity.
  - pose proof (asked_plain s (QInjectInput t) c G O I) as A. cbn [asks_for] in A.
    destruct (parse_injected typer t) as [l|]; apply bool_done; [|exact A].
    eapply LI_calm; [apply calm_send; discriminate|exact A].
  - pose proof (asked_plain s (QInjectOutput t) c G O I) as A. cbn [asks_for] in A.
    destruct (parse_injected typer t) as [l|]; apply bool_done; [|exact A].
    eapply LI_calm; [apply calm_send; discriminate|exact A].
Qed.

(** A connection stays open while its own messages are handled. *)
Lemma open_stays s m c : inv c -> get_control s (cl_controls c) <> None ->
  get_control s (cl_controls (on_control_message s m c)) <> None.
Proof.
  intros HI O. assert (HI' := control_inv search typer sent focus disk s m c HI).
  destruct (get_control s (cl_controls c)) as [x|] eqn:GX; [|contradiction]. clear O.
  apply get_control_in in GX. destruct GX as [XI XS].
  assert (C : exists i, In (s, i) (ids (cl_controls (on_control_message s m c)))).
  { pose proof (w_conn _ (proj2 HI')) as WC. pose proof (w_conn _ (proj2 HI)) as WC0.
    assert (P : In (s, ct_id x) (connections (cl_trace c))).
    { apply WC0. unfold ids. apply in_map_iff. exists x. rewrite XS. auto. }
    enough (Q : exists i, In (s, i) (connections (cl_trace (on_control_message s m c)))).
    { destruct Q as [i Q]. exists i. apply WC. exact Q. }
    (* of all effects only the end of the connection removes it *)
    assert (E : exists es, cl_trace (on_control_message s m c) = cl_trace c ++ es /\
                  Forall (fun e => match e with FClosed s' => s' <> s | FLost => False | _ => True end) es).
    { clear WC WC0 HI' P. pose proof (proj2 HI) as [W1 W2 W3].
      assert (CE : forall e, calm_effect e -> match e with FClosed s' => s' <> s | FLost => False | _ => True end).
      { intros [] H; try exact I; contradiction. }
      assert (SV : forall s' k d, exists st, cl_trace (send_virtual_key_state s' k d) = cl_trace d ++ [FAnswer s' (AVirtual k st)]).
      { intros s' k d. unfold send_virtual_key_state, get_virtual_key_state.
        destruct (is_virtual_key k); [destruct (nth_error _ _)|]; eexists; reflexivity. }
      assert (KC : forall d d' e0 es0, calm d d' -> cl_trace d = cl_trace c ++ e0 :: nil -> (match e0 with FClosed s' => s' <> s | FLost => False | _ => True end) ->
        Forall (fun e => match e with FClosed s' => s' <> s | FLost => False | _ => True end) es0 ->
        exists es, cl_trace d' ++ es0 = cl_trace c ++ es /\
          Forall (fun e => match e with FClosed s' => s' <> s | FLost => False | _ => True end) es).
      { intros d d' e0 es0 [(es & T & F & _) _] D E0 F0. exists (e0 :: es ++ es0). rewrite T, D, <- !app_assoc.
        split; [reflexivity|]. constructor; [exact E0|]. apply Forall_app. split; [|exact F0].
        eapply Forall_impl; [|exact F]. exact CE. }
      assert (ANS : forall k st, Forall (fun e => match e with FClosed s' => s' <> s | FLost => False | _ => True end) [FAnswer s (AVirtual k st)]).
      { intros. constructor; [exact I|constructor]. }
      unfold Client.on_control_message. destruct m as [n|n st|n|id|n| |t|t].
      - destruct (SV s (get_virtual_key n (emit (FAsked s (QGet n)) c)) (emit (FAsked s (QGet n)) c)) as [st E]. rewrite E.
        eapply (KC (emit (FAsked s (QGet n)) c)); [apply calm_refl|reflexivity|exact I|apply ANS].
      - cbv zeta. set (c1 := emit _ c).
        destruct (SV s (get_virtual_key n c1) (snd (send (SVirtual (get_virtual_key n c1) (state_of st)) c1))) as [st' E]. rewrite E.
        eapply (KC c1); [apply calm_send; discriminate|reflexivity|exact I|apply ANS].
      - unfold on_toggle_requested. set (c1 := emit _ c). destruct (_ =? 0).
        + destruct (SV s (get_virtual_key n c1) c1) as [st E]. rewrite E.
          eapply (KC c1); [apply calm_refl|reflexivity|exact I|apply ANS].
        + exists [FAsked s (QNotify n)]. split; [reflexivity|]. constructor; [exact I|constructor].
      - set (c1 := emit _ c). destruct (SV s 0 (on_set_instance_id s id c1)) as [st E]. rewrite E.
        unfold on_set_instance_id. change (cl_controls c1) with (cl_controls c).
        assert (GX : get_control s (cl_controls c) = Some x) by (apply get_sorted; assumption). rewrite GX.
        destruct (text_eqb (ct_id x) id) eqn:EQ.
        { exists [FAsked s (QInstance id); FAnswer s (AVirtual 0 st)]. split; [unfold c1; cbn [emit cl_trace]; rewrite <- app_assoc; reflexivity|].
          constructor; [exact I|apply ANS]. }
        cbn [c_controls cl_trace]. unfold disconnect_by_instance_id. destruct (trivial_id id).
        { exists [FAsked s (QInstance id); FAnswer s (AVirtual 0 st)]. split; [unfold c1; cbn [emit cl_trace]; rewrite <- app_assoc; reflexivity|].
          constructor; [exact I|apply ANS]. }
        match goal with |- context [fold_left _ ?g ?d] => destruct (closed_trace g d) as (T1 & _) end.
        rewrite T1. change (cl_controls c1) with (cl_controls c). eexists. split.
        { unfold c1. cbn [c_controls emit cl_trace]. rewrite <- !app_assoc. reflexivity. }
        constructor; [exact I|]. apply Forall_app. split; [|apply ANS]. apply Forall_forall. intros e Q.
        apply in_map_iff in Q. destruct Q as (y & <- & Q). apply filter_In in Q. destruct Q as [Q1 Q2]. intro Q3.
        assert (y = x) by (pose proof (get_sorted s _ y W1 Q1 Q3); congruence). subst y. congruence.
      - set (c1 := emit _ c). pose proof (calm_load n c1) as K. destruct (load_config n c1) as [ok c2]. cbn [snd] in K.
        unfold answer_bool, answer. destruct ok.
        + pose proof (calm_config c2) as K2. destruct (send_config c2) as [ok c3]. cbn [snd] in K2. cbn [emit cl_trace].
          eapply (KC c1); [eapply calm_trans; eassumption|reflexivity|exact I|apply ANS].
        + cbn [emit cl_trace]. eapply (KC c1); [exact K|reflexivity|exact I|apply ANS].
      - cbv zeta. pose proof (calm_send SNextKey (on_next_key_requested s (emit (FAsked s QNextKey) c)) ltac:(discriminate)) as K.
        rewrite <- (app_nil_r (cl_trace (snd _))). eapply KC; [exact K|reflexivity|exact I|constructor].
      - set (c1 := emit _ c). unfold answer_bool, answer. destruct (parse_injected typer t) as [l|]; cbn [emit cl_trace].
        + eapply (KC c1); [apply calm_send; discriminate|reflexivity|exact I|apply ANS].
        + eapply (KC c1); [apply calm_refl|reflexivity|exact I|apply ANS].
      - set (c1 := emit _ c). unfold answer_bool, answer. destruct (parse_injected typer t) as [l|]; cbn [emit cl_trace].
        + eapply (KC c1); [apply calm_send; discriminate|reflexivity|exact I|apply ANS].
        + eapply (KC c1); [apply calm_refl|reflexivity|exact I|apply ANS]. }
    destruct E as (es & T & F). rewrite T. clear - P F. revert F.
    induction es as [|e es IH] using rev_ind; intro F; [rewrite app_nil_r; eauto|].
    apply Forall_app in F. destruct F as [F1 F2]. inversion F2 as [|? ? F3 _]; subst.
    rewrite app_assoc, connections_snoc. destruct (IH F1) as [i Q].
    destruct e as [| | | |s'|s' m'| | | | |s'|]; cbn [conns_step]; try (exists i; exact Q).
    - destruct (existsb _ _); [exists i; exact Q|]. exists i. apply in_or_app. left. exact Q.
    - destruct m'; try (exists i; exact Q). destruct (N.eqb_spec s s') as [E|E].
      + exists id. apply in_map_iff. exists (s, i). cbn [fst]. rewrite E, N.eqb_refl. split; [congruence|].
        rewrite <- E. exact Q.
      + exists i. apply in_map_iff. exists (s, i). cbn [fst]. destruct (N.eqb_spec s s'); [contradiction|auto].
    - exists i. apply filter_In. split; [exact Q|]. cbn [fst]. destruct (N.eqb_spec s s') as [E|E]; [congruence|reflexivity].
    - contradiction. }
  destruct C as [i C]. unfold ids in C. apply in_map_iff in C. destruct C as (y & E & Y). injection E as E1 E2.
  rewrite (get_sorted s _ y (w_sorted _ (proj2 HI')) Y E1). discriminate.
Qed.
Lemma controls_link s l : forall c, inv c -> get_control s (cl_controls c) <> None -> LI nothing_owed c ->
  LI nothing_owed (fold_left (fun c m => on_control_message s m c) l c).
Proof.
  induction l as [|m l IH]; intros c HI O G; [exact G|]. cbn [fold_left].
  apply IH; [apply control_inv; exact HI|apply open_stays; assumption|apply control_link; assumption].
Qed.
Lemma servers_link l : forall c, inv c -> LI nothing_owed c ->
  LI nothing_owed (fold_left (fun c m => on_server_message m c) l c).
Proof.
  induction l as [|m l IH]; intros c HI G; [exact G|]. cbn [fold_left].
  apply IH; [apply server_inv; exact HI|apply server_link; assumption].
Qed.
Lemma loop_link reads l : forall c, inv c -> LI nothing_owed c ->
  LI nothing_owed (control_loop search typer sent focus disk reads l c).
Proof.
  induction l as [|s l IH]; intros c HI G; cbn [control_loop]; [exact G|].
  destruct (get_control s (cl_controls c)) as [x|] eqn:E; [|apply IH; assumption].
  destruct (reads s) as [ms ok].
  assert (G1 : LI nothing_owed (fold_left (fun c m => on_control_message s m c) ms c))
    by (apply controls_link; [exact HI|rewrite E; discriminate|exact G]).
  assert (H1 := controls_inv search typer sent focus disk s ms c HI).
  destruct ok; apply IH; auto; [apply close_inv|apply close_link]; assumption.
Qed.
Lemma turn_link t c : inv c -> LI nothing_owed c -> LI nothing_owed (snd (loop_turn t c)).
Proof.
  intros HI G. unfold Client.loop_turn.
  assert (U : exists b c1, (if tu_auto t then update_file true c else (false, c)) = (b, c1) /\ inv c1 /\ LI nothing_owed c1).
  { destruct (tu_auto t); [|exists false, c; auto].
    pose proof (keep_loads _ _ (update_file_loads disk true c)) as L. pose proof (calm_file true c) as M.
    destruct (update_file true c) as [b c1]. cbn [snd] in *.
    exists b, c1. split; [reflexivity|]. split; [eapply inv_keep; eassumption|eapply LI_calm; eassumption]. }
  destruct U as (b & c1 & E & H1 & G1). rewrite E. clear E.
  assert (U : exists ok c2, (if b then send_config c1 else (true, c1)) = (ok, c2) /\ inv c2 /\ LI nothing_owed c2).
  { destruct b; [|exists true, c1; auto]. pose proof (keep_config search sent focus c1) as L. pose proof (calm_config c1) as M.
    destruct (send_config c1) as [ok c2]. cbn [snd] in *. exists ok, c2. split; [reflexivity|].
    split; [eapply inv_keep; eassumption|eapply LI_calm; eassumption]. }
  destruct U as (ok & c2 & E & H2 & G2). rewrite E. clear E. destruct ok; cbn [negb snd]; [|exact G2].
  pose proof (keep_update search focus c2) as L. pose proof (calm_update c2) as M.
  destruct (update_active_contexts c2) as [b' c3]. cbn [snd] in L, M.
  assert (H3 : inv c3) by (eapply inv_keep; eassumption).
  assert (G3 : LI nothing_owed c3) by (eapply LI_calm; eassumption).
  assert (U : exists ok c4, (if b' then send_active_contexts sent c3 else (true, c3)) = (ok, c4) /\ inv c4 /\ LI nothing_owed c4).
  { destruct b'; [|exists true, c3; auto]. pose proof (keep_send sent (SActive (cl_active_contexts c3)) c3) as L'.
    pose proof (calm_send (SActive (cl_active_contexts c3)) c3 ltac:(discriminate)) as M'.
    unfold Client.send_active_contexts. destruct (send (SActive (cl_active_contexts c3)) c3) as [ok c4]. cbn [snd] in *.
    exists ok, c4. split; [reflexivity|]. split; [eapply inv_keep; eassumption|eapply LI_calm; eassumption]. }
  destruct U as (ok & c4 & E & H4 & G4). rewrite E. clear E. destruct ok; cbn [negb snd]; [|exact G4].
  pose proof (servers_link (fst (tu_server t)) c4 H4 G4) as G5.
  pose proof (servers_inv key_name system (fst (tu_server t)) c4 H4) as H5.
  destruct (snd (tu_server t)); cbn [negb snd]; [|exact G5]. 
  destruct (tu_accept t) as [s|]; apply loop_link; auto; [apply accept_inv; exact H5|].
  apply accept_link; [exact (w_sorted _ (proj2 H5))|exact G5].
Qed.
Lemma connect_link c : LI nothing_owed c -> LI nothing_owed (snd (connect search sent focus c)).
Proof.
  intro G. unfold connect. eapply LI_calm; [apply calm_config|]. eapply LI_calm; [|exact G]. apply calm_same; reflexivity.
Qed.
Lemma step_link s c : inv c -> LI nothing_owed c -> LI nothing_owed (snd (client_step s c)).
Proof.
  intros HI G. destruct s as [t| | |]; cbn [Client.client_step snd].
  - pose proof (turn_link t c HI G) as H. destruct (loop_turn t c) as [ok c1]. cbn [snd] in H.
    destruct ok; [exact H|]. apply connect_link, lost_link, H.
  - eapply LI_calm; [apply calm_toggle|exact G].
  - eapply LI_calm; [apply calm_config|]. eapply LI_calm; [apply calm_file|exact G].
  - eapply LI_calm; [apply calm_send; discriminate|exact G].
Qed.
Lemma run_link l : forall c, inv c -> LI nothing_owed c -> LI nothing_owed (client_run l c).
Proof.
  induction l as [|s l IH]; intros c HI G; cbn [Client.client_run]; [exact G|].
  pose proof (step_link s c HI G) as H. pose proof (step_inv search typer key_name system sent focus disk s c HI) as HI'.
  destruct (client_step s c) as [ok c1]. cbn [snd] in *. destruct ok; [apply IH|]; assumption.
Qed.
Lemma main_link name l : LI nothing_owed (client_main name l).
Proof.
  unfold Client.client_main, start_client.
  assert (G : LI nothing_owed (snd (connect search sent focus (snd (load_config name new_client))))).
  { apply connect_link. eapply LI_calm; [apply calm_load|]. intro s. repeat split. }
  assert (HI : inv (snd (connect search sent focus (snd (load_config name new_client))))).
  { apply connect_inv. eapply inv_keep; [apply keep_loads, load_config_loads|apply new_inv]. }
  destruct (connect search sent focus (snd (load_config name new_client))) as [ok c].
  destruct ok; [apply run_link|]; assumption.
Qed.
End Client.
