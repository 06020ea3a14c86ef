(** Proofs about the exchange of messages. *)
From Coq Require Import String Ascii List Arith NArith ZArith Bool Lia.
From Verif Require Import Base Key Text Match Stage Config MultiStage Serial SerialSpec.
Import ListNotations.
Local Open Scope N_scope.

(** * Integers *)

Lemma le_length n : forall v, length (le n v) = n.
Proof. induction n as [|n IH]; intro v; cbn [le length]; [reflexivity|rewrite IH; reflexivity]. Qed.

Lemma byte_code v : N_of_ascii (ascii_of_N (v mod 256)) = v mod 256.
Proof. apply N_ascii_embedding. apply N.mod_lt. discriminate. Qed.

Lemma of_le_le n : forall v, v < 256 ^ N.of_nat n -> of_le (le n v) = v.
Proof.
  induction n as [|n IH]; intros v H.
  - cbn in *. lia.
  - cbn [le of_le]. rewrite byte_code. rewrite IH.
    + pose proof (N.div_mod v 256). lia.
    + rewrite Nat2N.inj_succ, N.pow_succ_r' in H. apply N.div_lt_upper_bound; lia.
Qed.

Lemma length_bytes_le n : n < 2 ^ 32 -> length_bytes n = le 4 n.
Proof.
  intro H. unfold length_bytes. cbn [le].
  repeat rewrite N.div_div by discriminate. reflexivity.
Qed.

Lemma int_round z : is_int z -> int_of_u32 (u32_of_int z) = z.
Proof.
  unfold is_int, int_of_u32, u32_of_int. intro H.
  change (2 ^ 31)%Z with 2147483648%Z in *. change (2 ^ 32)%Z with 4294967296%Z in *.
  change (2 ^ 31) with 2147483648.
  pose proof (Z.mod_pos_bound z 4294967296 eq_refl) as P.
  rewrite Z2N.id by lia.
  destruct (N.ltb_spec (Z.to_N (z mod 4294967296)) 2147483648) as [L|L].
  - destruct (Z.lt_ge_cases z 0) as [N|N].
    + rewrite <- (Z_mod_plus_full z 1) in L. rewrite Z.mod_small in L by lia. lia.
    + rewrite Z.mod_small by lia. lia.
  - destruct (Z.lt_ge_cases z 0) as [N|N].
    + rewrite <- (Z_mod_plus_full z 1). rewrite Z.mod_small by lia. lia.
    + rewrite Z.mod_small in L by lia. lia.
Qed.

Lemma u32_bound z : u32_of_int z < 2 ^ 32.
Proof.
  unfold u32_of_int. change (2 ^ 32)%Z with 4294967296%Z. change (2 ^ 32) with 4294967296.
  pose proof (Z.mod_pos_bound z 4294967296 eq_refl). lia.
Qed.

(** * Readers *)

Lemma decodes_ret {A} (a : A) : decodes (rret a) [] a.
Proof. intros pre post u b s. unfold rret. cbn [length]. rewrite Nat.add_0_r. reflexivity. Qed.

Lemma decodes_bind {A B} (m : rd A) (f : A -> rd B) p q a b :
  decodes m p a -> decodes (f a) q b -> decodes (rbind m f) (p ++ q) b.
Proof.
  intros Hm Hf pre post u bd s. unfold rbind.
  specialize (Hm pre (q ++ post) u bd s). rewrite <- app_assoc. rewrite Hm.
  specialize (Hf (pre ++ p) post u bd s). rewrite <- app_assoc in Hf.
  rewrite app_length in Hf. rewrite app_length. rewrite Nat.add_assoc. exact Hf.
Qed.

Lemma decodes_bind0 {A B} (m : rd A) (f : A -> rd B) p a b :
  decodes m p a -> decodes (f a) [] b -> decodes (rbind m f) p b.
Proof. intros Hm Hf. rewrite <- (app_nil_r p). exact (decodes_bind m f p [] a b Hm Hf). Qed.

Lemma decodes_bind_nil {A B} (m : rd A) (f : A -> rd B) q a b :
  decodes m [] a -> decodes (f a) q b -> decodes (rbind m f) q b.
Proof. intros Hm Hf. exact (decodes_bind m f [] q a b Hm Hf). Qed.

Lemma decodes_map {A B} (m : rd A) (f : A -> B) p a :
  decodes m p a -> decodes (rbind m (fun x => rret (f x))) p (f a).
Proof. intro H. exact (decodes_bind0 m _ p a (f a) H (decodes_ret _)). Qed.

Lemma decodes_raw init p : p <> [] -> decodes (read_raw (length p) init) p p.
Proof.
  intros N pre post u b s. unfold read_raw, can_read. cbn [r_buf r_it r_ub r_bad r_short].
  assert (L : (length (pre ++ p ++ post) = length pre + (length p + length post))%nat)
    by (repeat rewrite app_length; lia).
  rewrite L.
  destruct (Nat.eqb_spec (length p) 0) as [E|E]; [destruct p; [congruence|discriminate]|].
  destruct (Nat.leb_spec (length pre + length p) (length pre + (length p + length post))); [|lia].
  destruct (Nat.ltb_spec (length pre + (length p + length post)) (length pre + length p)); [lia|].
  cbn [negb andb]. rewrite orb_false_r. f_equal.
  rewrite skipn_app, skipn_all, Nat.sub_diag. cbn [app skipn].
  rewrite firstn_app, firstn_all, Nat.sub_diag. cbn [firstn]. apply app_nil_r.
Qed.

Lemma decodes_raw_n n init p : length p = n -> n <> 0%nat -> decodes (read_raw n init) p p.
Proof. intros E N. subst n. apply decodes_raw. intro F. subst p. apply N. reflexivity. Qed.

Lemma decodes_uint n v : n <> 0%nat -> v < 256 ^ N.of_nat n -> decodes (read_uint n) (le n v) v.
Proof.
  intros N L. unfold read_uint.
  rewrite <- (of_le_le n v L) at 2.
  apply (decodes_map (read_raw n (zeros n)) of_le). apply decodes_raw_n; [apply le_length|exact N].
Qed.

Lemma decodes_u32 v : v < 2 ^ 32 -> decodes read_u32 (write_u32 v) v.
Proof. intro L. apply (decodes_uint 4); [discriminate|exact L]. Qed.

Lemma decodes_i32 z : is_int z -> decodes read_i32 (write_i32 z) z.
Proof.
  intro I. unfold read_i32, write_i32. rewrite <- (int_round z I) at 2.
  apply (decodes_map (read_uint 4) int_of_u32). apply decodes_uint; [discriminate|].
  exact (u32_bound z).
Qed.

Lemma decodes_bool b : decodes read_bool (write_bool b) b.
Proof.
  unfold read_bool, write_bool.
  apply (decodes_bind0 _ _ _ (if b then 1 else 0)).
  - apply decodes_uint; [discriminate|destruct b; reflexivity].
  - apply (decodes_bind_nil _ _ [] tt).
    + destruct b; apply decodes_ret.
    + destruct b; apply decodes_ret.
Qed.

Lemma decodes_string t : short t -> decodes read_string (write_string t) t.
Proof.
  intro S. unfold read_string, write_string.
  apply (decodes_bind _ _ _ _ (N.of_nat (length t))).
  - apply decodes_u32. exact S.
  - rewrite Nat2N.id. destruct t as [|c t].
    + intros pre post u b s. cbn. rewrite orb_false_r, Nat.add_0_r. reflexivity.
    + apply decodes_raw. discriminate.
Qed.

Lemma decodes_times {A B} (f : rd B) (w : A -> bytes) (v : A -> B) l :
  Forall (fun x => decodes f (w x) (v x)) l ->
  decodes (read_times (length l) f) (flat_map w l) (map v l).
Proof.
  induction 1 as [|x l Hx Hl IH].
  - apply decodes_ret.
  - cbn [length read_times flat_map map].
    apply (decodes_bind _ _ _ _ (v x)); [exact Hx|].
    apply (decodes_map (read_times (length l) f) (fun y => v x :: y)). exact IH.
Qed.

Lemma decodes_list {A B} (f : rd B) (w : A -> bytes) (v : A -> B) l :
  short l -> Forall (fun x => decodes f (w x) (v x)) l ->
  decodes (read_list f) (write_list w l) (map v l).
Proof.
  intros S H. unfold read_list, write_list.
  apply (decodes_bind _ _ _ _ (N.of_nat (length l))).
  - apply decodes_u32. exact S.
  - rewrite Nat2N.id. apply decodes_times. exact H.
Qed.

Lemma state_code_bound s : state_code s < 16.
Proof. destruct s; reflexivity. Qed.

Lemma decodes_event e : fit_event e -> decodes read_event (write_event e) (wire e).
Proof.
  intros [K V]. unfold read_event.
  assert (E : event_of_bytes (write_event e) = wire e).
  { unfold event_of_bytes, write_event, write_u16, wire.
    rewrite firstn_app, skipn_app, le_length. rewrite Nat.sub_diag.
    rewrite (firstn_all2 (le 2 (ek e))) by (rewrite le_length; lia).
    rewrite (skipn_all2 (le 2 (ek e))) by (rewrite le_length; lia).
    rewrite firstn_O, skipn_O, app_nil_r. cbn [app].
    pose proof (state_code_bound (es e)) as S.
    rewrite of_le_le by exact K.
    rewrite of_le_le by (change (256 ^ N.of_nat 2) with 65536; lia).
    rewrite (N.mul_comm 16). rewrite N.mod_add by discriminate. rewrite N.div_add by discriminate.
    rewrite N.mod_small by exact S. rewrite N.div_small by exact S. reflexivity. }
  rewrite <- E. apply (decodes_map (read_raw 4 (zeros 4)) event_of_bytes).
  apply decodes_raw_n; [|discriminate].
  unfold write_event, write_u16. rewrite app_length, le_length, le_length. reflexivity.
Qed.

Lemma decodes_seq l : fit_seq l -> decodes read_key_sequence (write_key_sequence l) (map wire l).
Proof.
  intros [S F]. apply decodes_list; [exact S|].
  eapply Forall_impl; [|exact F]. intros e He. apply decodes_event. exact He.
Qed.

Lemma decodes_filter f : fit_filter f -> decodes read_filter (write_filter f) f.
Proof.
  destruct f as [t r i]. intros [S R]. cbn [f_string f_regex] in S, R. subst r.
  unfold read_filter, write_filter. cbn [f_string f_invert].
  apply (decodes_bind _ _ _ _ t); [apply decodes_string; exact S|].
  apply (decodes_map read_bool (fun i => Filter t (is_regex t) i)).
  apply decodes_bool.
Qed.

Lemma decodes_indexed l i : fit_seq l -> is_int i ->
  decodes read_indexed (write_key_sequence l ++ write_i32 i) (map wire l, i).
Proof.
  intros S I. unfold read_indexed.
  apply (decodes_bind _ _ _ _ (map wire l)); [apply decodes_seq; exact S|].
  apply (decodes_map read_i32 (fun x => (map wire l, x))). apply decodes_i32. exact I.
Qed.

Definition context_bytes (c : cctx) : bytes :=
  write_list (fun i => write_key_sequence (in_seq i) ++ write_i32 (in_out i)) (cc_inputs c)
  ++ write_list write_key_sequence (cc_outputs c)
  ++ write_list (fun m => write_key_sequence (cm_out m) ++ write_i32 (cm_idx m)) (cc_commands c)
  ++ write_filter (cc_dev c)
  ++ write_filter (cc_devid c)
  ++ write_key_sequence (cc_mods c)
  ++ write_bool (cc_inv c)
  ++ write_bool (cc_fall c).

Lemma decodes_context c : fit_context c -> decodes read_context (context_bytes c) (server_view c).
Proof.
  intros (S1 & F1 & S2 & F2 & S3 & F3 & D1 & D2 & M). unfold read_context, context_bytes.
  eapply decodes_bind.
  { apply (decodes_list read_indexed (fun i => write_key_sequence (in_seq i) ++ write_i32 (in_out i))
             (fun i => (map wire (in_seq i), in_out i))); [exact S1|].
    eapply Forall_impl; [|exact F1]. intros i [A B]. apply decodes_indexed; assumption. }
  eapply decodes_bind.
  { apply (decodes_list read_key_sequence write_key_sequence (map wire)); [exact S2|].
    eapply Forall_impl; [|exact F2]. intros i A. apply decodes_seq; assumption. }
  eapply decodes_bind.
  { apply (decodes_list read_indexed (fun m => write_key_sequence (cm_out m) ++ write_i32 (cm_idx m))
             (fun m => (map wire (cm_out m), cm_idx m))); [exact S3|].
    eapply Forall_impl; [|exact F3]. intros i [A B]. apply decodes_indexed; assumption. }
  eapply decodes_bind; [apply decodes_filter; exact D1|].
  eapply decodes_bind; [apply decodes_filter; exact D2|].
  eapply decodes_bind; [apply decodes_seq; exact M|].
  eapply decodes_bind; [apply decodes_bool|].
  apply (decodes_map read_bool (fun x => WC _ _ _ _ _ _ _ x)). apply decodes_bool.
Qed.

Lemma stages_loop_decodes l : Forall fit_context l ->
  forall stages cur,
  decodes (stages_loop (length l) stages cur) (flat_map write_context l)
          (stages ++ grouped (map (fun c => (cc_stage c, server_view c)) l) cur).
Proof.
  induction 1 as [|c l Hc Hl IH]; intros stages cur.
  - cbn [length stages_loop flat_map map grouped].
    destruct cur; [rewrite app_nil_r|]; apply decodes_ret.
  - cbn [length stages_loop flat_map map grouped].
    change (write_context c) with (write_bool (cc_stage c) ++ context_bytes c).
    rewrite <- app_assoc.
    apply (decodes_bind _ _ _ _ (cc_stage c)); [apply decodes_bool|].
    apply (decodes_bind _ _ _ _ (server_view c)); [apply decodes_context; exact Hc|].
    destruct (cc_stage c); [destruct cur as [|x cur]|].
    + exact (IH stages _).
    + specialize (IH (stages ++ [x :: cur]) [server_view c]).
      rewrite <- app_assoc in IH. exact IH.
    + exact (IH stages _).
Qed.

Lemma decodes_stages l : short l -> Forall fit_context l ->
  decodes read_stages (write_contexts l) (server_stages l).
Proof.
  intros S F. unfold read_stages, write_contexts, write_list.
  apply (decodes_bind _ _ _ _ (N.of_nat (length l))); [apply decodes_u32; exact S|].
  rewrite Nat2N.id. exact (stages_loop_decodes l F [] []).
Qed.

Lemma decodes_type t : t < 256 -> decodes (read_uint 1) (write_u8 t) t.
Proof. intro L. apply decodes_uint; [discriminate|exact L]. Qed.

Lemma decodes_state s : decodes (read_uint 2) (write_u16 (state_code s)) (state_code s).
Proof. apply decodes_uint; [discriminate|]. destruct s; reflexivity. Qed.
Lemma decodes_key k : is_key k -> decodes (read_uint 2) (write_u16 k) k.
Proof. intro L. apply decodes_uint; [discriminate|exact L]. Qed.

(** * C32: each message *)

Lemma map_id' {A} (l : list A) : map (fun x => x) l = l.
Proof. induction l as [|x l IH]; cbn; [reflexivity|rewrite IH; reflexivity]. Qed.

Lemma decodes_key_state {B} (f : N -> N -> B) k s : is_key k ->
  decodes (get x <- read_uint 2 ;; get y <- read_uint 2 ;; rret [f x y])
          (write_u16 k ++ write_u16 (state_code s)) [f k (state_code s)].
Proof.
  intro K. eapply decodes_bind; [apply decodes_key; exact K|].
  apply (decodes_map (read_uint 2) (fun y => [f k y])). apply decodes_state.
Qed.

Lemma smsg_decodes m : fit_smsg m -> decodes read_smsg (write_smsg m) (scalls m).
Proof.
  destruct m as [c|l| |k s| |l|l]; cbn [fit_smsg write_smsg scalls]; intro F; unfold read_smsg.
  - destruct F as (S1 & F1 & S2 & F2 & S3 & F3).
    eapply decodes_bind; [apply decodes_type; reflexivity|].
    change (t_configuration =? t_configuration) with true. cbv iota.
    eapply decodes_bind.
    { apply (decodes_list read_grab_filter write_grab_filter (fun x => x)); [exact S1|].
      eapply Forall_impl; [|exact F1]. intros [g b] G. unfold read_grab_filter, write_grab_filter.
      eapply decodes_bind; [apply decodes_filter; exact G|].
      apply (decodes_map read_bool (fun x => (g, x))). apply decodes_bool. }
    eapply decodes_bind; [apply decodes_stages; assumption|].
    rewrite map_id'.
    apply (decodes_map (read_list read_string)
             (fun x => [CGrabFilters (cfg_grab c); CConfiguration (server_stages (cfg_contexts c));
                        CDirectives x])).
    rewrite <- (map_id' (cfg_directives c)) at 2.
    apply decodes_list; [exact S3|].
    eapply Forall_impl; [|exact F3]. intros t G. apply decodes_string. exact G.
  - destruct F as [S F].
    eapply decodes_bind; [apply decodes_type; reflexivity|]. cbn [N.eqb Pos.eqb t_configuration t_active_contexts].
    rewrite <- (map_id' l) at 2.
    apply (decodes_map read_active_contexts (fun x => [CActive x])).
    apply decodes_list; [exact S|].
    eapply Forall_impl; [|exact F]. intros t G. apply decodes_i32. exact G.
  - apply (decodes_bind0 _ _ _ t_validate_state); [apply decodes_type; reflexivity|]. apply decodes_ret.
  - eapply decodes_bind; [apply decodes_type; reflexivity|].
    exact (decodes_key_state CVirtual k s F).
  - apply (decodes_bind0 _ _ _ t_next_key_info); [apply decodes_type; reflexivity|]. apply decodes_ret.
  - eapply decodes_bind; [apply decodes_type; reflexivity|].
    apply (decodes_map read_key_sequence (fun x => [CInjectInput x])). apply decodes_seq. exact F.
  - eapply decodes_bind; [apply decodes_type; reflexivity|].
    apply (decodes_map read_key_sequence (fun x => [CInjectOutput x])). apply decodes_seq. exact F.
Qed.

Lemma cmsg_decodes m : fit_cmsg m -> decodes read_cmsg (write_cmsg m) (ccalls m).
Proof.
  destruct m as [i|k s|k n i]; cbn [fit_cmsg write_cmsg ccalls]; intro F; unfold read_cmsg;
    (eapply decodes_bind; [apply decodes_type; reflexivity|]).
  - apply (decodes_map read_i32 (fun x => [DAction x])). apply decodes_i32. exact F.
  - exact (decodes_key_state DVirtual k s F).
  - destruct F as (K & N & I).
    eapply decodes_bind; [apply decodes_key; exact K|].
    eapply decodes_bind; [apply decodes_string; exact N|].
    apply (decodes_map read_string (fun x => [DNextKeyInfo k n x])). apply decodes_string. exact I.
Qed.

Lemma rmsg_decodes m : fit_rmsg m -> decodes read_rmsg (write_rmsg m) (rcalls m).
Proof.
  destruct m as [n|n s|n|i|f| |t|t|t]; cbn [fit_rmsg write_rmsg rcalls]; intro F; unfold read_rmsg.
  6: { apply (decodes_bind0 _ _ _ t_next_key_info); [apply decodes_type; reflexivity|]. apply decodes_ret. }
  all: eapply decodes_bind; [apply decodes_type; reflexivity|].
  - apply (decodes_map read_string (fun x => [QGet x])). apply decodes_string. exact F.
  - eapply decodes_bind; [apply decodes_string; exact F|].
    apply (decodes_map (read_uint 2) (fun x => [QSet n x])). apply decodes_state.
  - apply (decodes_map read_string (fun x => [QNotify x])). apply decodes_string. exact F.
  - apply (decodes_map read_string (fun x => [QInstance x])). apply decodes_string. exact F.
  - apply (decodes_map read_string (fun x => [QConfig x])). apply decodes_string. exact F.
  - apply (decodes_map read_string (fun x => [QInjectInput x])).
    exact (decodes_string t F).
  - apply (decodes_map read_string (fun x => [QInjectOutput x])).
    exact (decodes_string t F).
  - apply (decodes_map read_string (fun x => [QInjectOutput x])).
    pose proof (decodes_string (quote2 :: t ++ [quote2])) as D. unfold short, write_string in D.
    cbn [length] in D. rewrite app_length in D. cbn [length] in D.
    replace (S (length t + 1)) with (length t + 2)%nat in D by lia.
    apply D. lia.
Qed.

Lemma answer_decodes k s : is_key k ->
  decodes read_answer (write_amsg (AVirtual k s)) [(k, state_code s)].
Proof.
  intro F. cbn [write_amsg]. unfold read_answer.
  eapply decodes_bind; [apply decodes_type; reflexivity|].
  exact (decodes_key_state pair k s F).
Qed.
Lemma key_info_decodes t : short t -> decodes read_key_info (write_amsg (ANextKeyInfo t)) [t].
Proof.
  intro F. cbn [write_amsg]. unfold read_key_info.
  eapply decodes_bind; [apply decodes_type; reflexivity|].
  apply (decodes_map read_string (fun x => [x])). apply decodes_string. exact F.
Qed.

Lemma unwire_wire e : unwire (wire e) = Some e.
Proof. destruct e as [k s v]. unfold unwire, wire. cbn [we_state we_key we_value ek es ev]. destruct s; reflexivity. Qed.
