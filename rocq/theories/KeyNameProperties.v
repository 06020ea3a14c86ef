(** Property C107 of the names of keys. *)
From Coq Require Import String Ascii List Arith NArith ZArith Bool Lia.
From Verif Require Import Base Key KeyNames Text ParseSeq ClientProofs KeyNameSpec.
Import ListNotations.
Local Open Scope N_scope.

(** ** Numbers *)

Lemma hex_digit c d : hex_value c = Some (Z.of_N d) <-> digit_of 16 c d.
Proof.
  unfold hex_value, digit_of, is_digit, in_codes, digit_value, code.
  assert (B : N_of_ascii c < 256) by (destruct c as [[] [] [] [] [] [] [] []]; vm_compute; reflexivity).
  destruct (N.leb_spec 48 (N_of_ascii c)), (N.leb_spec (N_of_ascii c) 57),
    (N.leb_spec 97 (N_of_ascii c)), (N.leb_spec (N_of_ascii c) 102), (N.leb_spec 65 (N_of_ascii c)), (N.leb_spec (N_of_ascii c) 70);
    cbn [andb]; (split; [intros H'; first [discriminate H'|injection H' as H']; lia|intros H'; first [f_equal; lia|exfalso; lia]]).
Qed.
Lemma hex_some c z : hex_value c = Some z -> (0 <= z < 16)%Z.
Proof.
  unfold hex_value, is_digit, in_codes, digit_value, code.
  destruct (N.leb_spec 48 (N_of_ascii c)), (N.leb_spec (N_of_ascii c) 57),
    (N.leb_spec 97 (N_of_ascii c)), (N.leb_spec (N_of_ascii c) 102), (N.leb_spec 65 (N_of_ascii c)), (N.leb_spec (N_of_ascii c) 70);
    cbn [andb]; intros H'; first [discriminate H'|injection H' as H']; lia.
Qed.
Lemma digit_less base c d : base <= 16 -> digit_of base c d <-> digit_of 16 c d /\ d < base.
Proof. unfold digit_of. intuition lia. Qed.

Lemma read_number base : base <= 16 -> forall t l, Forall2 (digit_of base) t l -> forall n,
  read_base (Z.of_N base) t (Z.of_N n) = Some (Z.of_N (fold_left (fun n d => n * base + d) l n)).
Proof.
  intros B t l F. induction F as [|c d t l H F IH]; intros n; [reflexivity|]. cbn [read_base fold_left].
  apply digit_less in H; [|exact B]. destruct H as [H L]. apply hex_digit in H. rewrite H.
  destruct (Z.ltb_spec (Z.of_N d) (Z.of_N base)); [|exfalso; lia].
  rewrite <- IH. f_equal. lia.
Qed.
Lemma number_read base : base <= 16 -> forall t n z, read_base (Z.of_N base) t (Z.of_N n) = Some z ->
  exists l, Forall2 (digit_of base) t l /\ z = Z.of_N (fold_left (fun n d => n * base + d) l n).
Proof.
  intros B. induction t as [|c t IH]; intros n z; cbn [read_base]; [intros [= <-]; exists []; split; [constructor|reflexivity]|].
  destruct (hex_value c) as [d|] eqn:Hd; [|intros Q; discriminate Q]. pose proof (hex_some _ _ Hd) as Rd.
  destruct (Z.ltb_spec d (Z.of_N base)) as [L|L]; [|intros Q; discriminate Q].
  replace (Z.of_N n * Z.of_N base + d)%Z with (Z.of_N (n * base + Z.to_N d)) by lia. intros Q.
  destruct (IH _ _ Q) as (l & F & ->). exists (Z.to_N d :: l). split; [|reflexivity]. constructor; [|exact F].
  apply digit_less; [exact B|]. split; [apply hex_digit; rewrite Z2N.id by lia; exact Hd|lia].
Qed.
Lemma read_iff base t v : base <= 16 -> read_base (Z.of_N base) t 0 = Some (Z.of_N v) <-> number_in base t v.
Proof.
  intros B. unfold number_in, value. change 0%Z with (Z.of_N 0). split.
  - intros H. destruct (number_read base B t 0 _ H) as (l & F & E). exists l. split; [exact F|]. lia.
  - intros (l & F & <-). now apply read_number.
Qed.
Lemma read_nonneg base t n z : base <= 16 -> read_base (Z.of_N base) t (Z.of_N n) = Some z -> exists v, z = Z.of_N v.
Proof. intros B H. destruct (number_read base B t n z H) as (l & _ & ->). eauto. Qed.

(** The decision on a number *)
Definition if_code (n : option Z) : key :=
  match n with
  | Some z => if (0 <? z)%Z && (z <? 0xF000)%Z then Z.to_N z else k_none
  | None => k_none
  end.
Lemma code_iff base t v : base <= 16 -> v <> 0 ->
  if_code (read_base (Z.of_N base) t 0) = v <-> number_in base t v /\ is_code v.
Proof.
  intros B V. unfold is_code. split.
  - unfold if_code. destruct (read_base (Z.of_N base) t 0) as [z|] eqn:R; [|change k_none with 0; congruence].
    destruct (read_nonneg base t 0 z B R) as [u ->].
    destruct (Z.ltb_spec 0 (Z.of_N u)) as [L|L]; cbn [andb]; [|change k_none with 0; congruence].
    destruct (Z.ltb_spec (Z.of_N u) 0xF000) as [M|M]; [|change k_none with 0; congruence].
    rewrite N2Z.id. intros <-. split; [now apply read_iff|lia].
  - intros [H C]. apply read_iff in H; [|exact B]. rewrite H. unfold if_code.
    destruct (Z.ltb_spec 0 (Z.of_N v)); [|exfalso; lia]. destruct (Z.ltb_spec (Z.of_N v) 0xF000); [|exfalso; lia]. cbn [andb]. apply N2Z.id.
Qed.

(** ** Scan codes *)
Inductive is_scan_code : text -> key -> Prop :=
| s_hex : forall x t v, x = "x"%char \/ x = "X"%char -> t <> [] -> number_in 16 t v -> is_code v -> is_scan_code ("0"%char :: x :: t) v
| s_decimal : forall c d t v, c <> "0"%char -> number_in 10 (c :: d :: t) v -> is_code v -> is_scan_code (c :: d :: t) v
| s_octal : forall t v, t <> [] -> number_in 8 t v -> is_code v -> is_scan_code ("0"%char :: t) v.

Lemma code_char c d : (code c =? N_of_ascii d) = true <-> c = d.
Proof.
  unfold code. rewrite N.eqb_eq. split; [|now intros ->]. intros H. rewrite <- (ascii_N_embedding c), <- (ascii_N_embedding d). now rewrite H.
Qed.
Lemma first_digit base c t v : base <= 10 -> number_in base (c :: t) v -> is_digit c = true.
Proof.
  intros B (l & F & _). inversion F as [|? d ? ? [L H] _]; subst. unfold is_digit, in_codes, code. 
  destruct H as [[_ ->]|[H _]]; [|exfalso; lia]. apply andb_true_iff. rewrite !N.leb_le. lia.
Qed.
Lemma not_x base c t v : base <= 16 -> number_in base (c :: t) v -> (code c =? 120) || (code c =? 88) = false.
Proof.
  intros B (l & F & _). inversion F as [|? d ? ? [L H] _]; subst. unfold code.
  destruct (N.eqb_spec (N_of_ascii c) 120), (N.eqb_spec (N_of_ascii c) 88); try reflexivity; exfalso; lia.
Qed.

Lemma scan_code t v : v <> 0 -> try_parse_key_code t = v <-> is_scan_code t v.
Proof.
  intros V. split.
  - destruct t as [|c [|d r]]; [intros H; elim V; now rewrite <- H|intros H; elim V; now rewrite <- H|]. cbn [try_parse_key_code].
    destruct (is_digit c) eqn:D; [|change k_none with 0; congruence].
    change (if_code (if code c =? 48 then if (code d =? 120) || (code d =? 88) then match r with [] => None | _ => read_base 16 r 0 end
      else read_base 8 (d :: r) 0 else read_base 10 (c :: d :: r) 0) = v -> is_scan_code (c :: d :: r) v).
    destruct (code c =? 48) eqn:C.
    + change 48 with (N_of_ascii "0") in C. apply code_char in C. subst c.
      destruct ((code d =? 120) || (code d =? 88)) eqn:X.
      * destruct r as [|e r]; [intros H; elim V; now rewrite <- H|]. intros H. apply (code_iff 16) in H; [|lia|exact V]. destruct H as [H K].
        apply s_hex; auto; [|discriminate]. apply orb_true_iff in X. destruct X as [X|X]; [left|right].
        -- change 120 with (N_of_ascii "x") in X. now apply code_char in X.
        -- change 88 with (N_of_ascii "X") in X. now apply code_char in X.
      * intros H. apply (code_iff 8) in H; [|lia|exact V]. destruct H as [H K]. apply s_octal; auto. discriminate.
    + intros H. apply (code_iff 10) in H; [|lia|exact V]. destruct H as [H K]. apply s_decimal; auto. intros ->. discriminate C.
  - intros HS. revert V. destruct HS as [x t' v' X Nt H K|c d t' v' N0 H K|t' v' Nt H K]; intros V.
    + destruct t' as [|e t']; [congruence|]. destruct X as [->| ->]; cbn [try_parse_key_code]; apply (code_iff 16); auto; lia.
    + cbn [try_parse_key_code]. rewrite (first_digit 10 c (d :: t') v' ltac:(lia) H).
      destruct (code c =? 48) eqn:C; [change 48 with (N_of_ascii "0") in C; apply code_char in C; congruence|].
      apply (code_iff 10); auto; lia.
    + destruct t' as [|d t']; [congruence|]. cbn [try_parse_key_code]. change (is_digit "0") with true. change (code "0" =? 48) with true. cbn iota.
      rewrite (not_x 8 d t' v' ltac:(lia) H). apply (code_iff 8); auto; lia.
Qed.
Lemma scan_digit t v : is_scan_code t v -> exists c r, t = c :: r /\ is_digit c = true.
Proof.
  intros [x t' v' X Nt H K|c d t' v' N0 H K|t' v' Nt H K]; eexists _, _; (split; [reflexivity|]); try reflexivity.
  now apply (first_digit 10 c (d :: t') v').
Qed.
Lemma scan_none t : (forall v, v <> 0 -> ~ is_scan_code t v) -> try_parse_key_code t = 0.
Proof.
  intros H. destruct (N.eq_dec (try_parse_key_code t) 0) as [E|E]; [exact E|]. exfalso. apply (H _ E). now apply scan_code.
Qed.

(** ** The table *)

Lemma T_inj a b : T a = T b -> a = b.
Proof. unfold T. intros H. rewrite <- (string_of_list_ascii_of_string a), <- (string_of_list_ascii_of_string b). now rewrite H. Qed.
Lemma lookup_in t l k : lookup_name t l = k -> k <> 0 -> exists n, t = T n /\ In (n, k) l.
Proof.
  intros H K. induction l as [|[n k'] l IH]; cbn [lookup_name] in H; [change k_none with 0 in H; congruence|].
  destruct (text_eqb t (T n)) eqn:Q.
  - apply text_eqb_eq in Q. exists n. split; [exact Q|]. left. now rewrite H.
  - destruct (IH H) as (n' & E & I). exists n'. split; [exact E|now right].
Qed.
Definition resolves (x : string * key) : bool := get_key_by_name (T (fst x)) =? snd x.
Lemma all_resolve : forallb resolves (key_names ++ other_names) = true.
Proof. vm_compute. reflexivity. Qed.
Lemma common_in t k : lookup_common t = k -> k <> 0 -> exists n, t = T n /\ In (n, k) (key_names ++ other_names).
Proof.
  unfold lookup_common. intros H K. destruct (lookup_name t key_names) eqn:L.
  - destruct (lookup_in _ _ _ H K) as (n & E & I). exists n. split; [exact E|]. apply in_or_app. now right.
  - subst k. destruct (lookup_in _ _ _ L K) as (n & E & I). exists n. split; [exact E|]. apply in_or_app. now left.
Qed.
Lemma common_names n k : In (n, k) (key_names ++ other_names) -> names (T n) k.
Proof. intros I. apply in_app_or in I. destruct I as [I|I]; [now apply n_table|now apply n_other]. Qed.

(** One character: only the table has such names. *)
Lemma one_char c k : lookup_common [c] = k -> k <> 0 -> In (String c "", k) key_names.
Proof.
  intros H K. destruct (common_in _ _ H K) as (n & E & I). destruct n as [|c' [|? ?]]; try discriminate E. injection E as ->.
  apply in_app_or in I. destruct I as [I|I]; [exact I|]. exfalso. cbn in I. repeat (destruct I as [I|I]; [discriminate I|]). exact I.
Qed.
Definition one_resolves (x : string * key) : bool :=
  match fst x with String c EmptyString => lookup_common [c] =? snd x | _ => true end.
Lemma one_resolve : forallb one_resolves key_names = true.
Proof. vm_compute. reflexivity. Qed.

Lemma skip_app p t : skip p (p ++ t) = Some t.
Proof. induction p as [|c p IH]; [now destruct t|]. cbn [skip app]. rewrite Ascii.eqb_refl. exact IH. Qed.
Lemma skip_some p : forall t r, skip p t = Some r -> t = p ++ r.
Proof.
  induction p as [|c p IH]; intros [|d t] r; cbn [skip]; try (intros [= <-]; reflexivity); try (intros Q; discriminate Q).
  destruct (Ascii.eqb c d) eqn:Q; [|intros H; discriminate H]. apply Ascii.eqb_eq in Q. subst d. intros H. cbn. f_equal. now apply IH.
Qed.
Lemma prefix_some p t r : remove_prefix p t = Some r -> t = T p ++ r /\ r <> [].
Proof.
  unfold remove_prefix. destruct (skip (T p) t) as [[|c r']|] eqn:Sk; [intros Q; discriminate Q| |intros Q; discriminate Q].
  intros [= <-]. split; [now apply skip_some|discriminate].
Qed.

(** ** Virtual keys *)
Lemma atoi_number t l : Forall2 (digit_of 10) t l -> forall n,
  atoi_digits t (Z.of_N n) = Z.of_N (fold_left (fun n d => n * 10 + d) l n).
Proof.
  induction 1 as [|c d t l [L H] F IH]; intros n; [reflexivity|]. cbn [atoi_digits fold_left].
  destruct H as [[_ H]|[H _]]; [|exfalso; lia].
  assert (D : is_digit c = true) by (unfold is_digit, in_codes, code; apply andb_true_iff; rewrite !N.leb_le; lia).
  rewrite D, <- IH. f_equal. unfold digit_value, code. lia.
Qed.
Lemma atoi_value t v : t <> [] -> number_in 10 t v -> v <= 255 -> atoi t = Z.of_N v.
Proof.
  intros Nt (l & F & E) L. destruct t as [|c t]; [congruence|]. pose proof (atoi_number _ _ F 0) as A. unfold value in E. rewrite E in A.
  assert (D : is_digit c = true) by (apply (first_digit 10 c t v); [lia|exists l; now split]).
  unfold atoi. cbn [drop_space].
  assert (Sp : is_space c = false) by (revert D; clear; destruct c as [[] [] [] [] [] [] [] []]; vm_compute; congruence).
  assert (M : (code c =? 45) = false /\ (code c =? 43) = false).
  { revert D. clear. unfold is_digit, in_codes. intros D. apply andb_true_iff in D. rewrite !N.leb_le in D. rewrite !N.eqb_neq. lia. }
  destruct M as [M1 M2]. rewrite Sp, M1, M2. change 0%Z with (Z.of_N 0). rewrite A. unfold clamp64, wrap32.
  rewrite Z.min_r, Z.max_r by lia. rewrite Z.mod_small by lia. lia.
Qed.

(** ** C107 The names of keys mean what is documented *)

Theorem C107_named : forall t k, names t k -> get_key_by_name t = k.
Proof.
  assert (Tab : forall n k, In (n, k) (key_names ++ other_names) -> get_key_by_name (T n) = k).
  { intros n k I. pose proof all_resolve as F. rewrite forallb_forall in F. specialize (F _ I). now apply N.eqb_eq in F. }
  assert (Code : forall t v, is_scan_code t v -> v <> 0 -> get_key_by_name t = v).
  { intros t v H V. unfold get_key_by_name. destruct (scan_digit _ _ H) as (c & r & -> & D).
    destruct (text_eqb (c :: r) (T "Any")) eqn:Q; [apply text_eqb_eq in Q; injection Q as -> _; discriminate D|].
    apply (scan_code (c :: r) v V) in H. rewrite H. destruct v; [congruence|reflexivity]. }
  assert (Late : forall c r, is_digit c = false -> try_parse_key_code (c :: r) = 0).
  { intros c r D. destruct r; [reflexivity|]. cbn [try_parse_key_code]. now rewrite D. }
  pose proof one_resolve as One. rewrite forallb_forall in One.
  intros t k [|n k' I|n k' I|c k' R I|c k' R I|x t' v X Nt H K|c d t' v N0 H K|t' v Nt H K|t' v Nt H L].
  - reflexivity.
  - apply Tab. apply in_or_app. now left.
  - apply Tab. apply in_or_app. now right.
  - unfold get_key_by_name. cbn [T list_ascii_of_string app text_eqb]. rewrite Late by reflexivity.
    specialize (One _ I). unfold one_resolves in One. cbn [fst snd] in One. apply N.eqb_eq in One.
    change (lookup_prefixed ("K"%char :: "e"%char :: "y"%char :: [c])) with (if in_codes 65 90 c then lookup_common [c] else k_none).
    unfold in_codes, code. rewrite (proj2 (N.leb_le _ _) (proj1 R)), (proj2 (N.leb_le _ _) (proj2 R)). exact One.
  - unfold get_key_by_name. cbn [T list_ascii_of_string app text_eqb]. rewrite Late by reflexivity.
    specialize (One _ I). unfold one_resolves in One. cbn [fst snd] in One. apply N.eqb_eq in One.
    change (lookup_prefixed ("D"%char :: "i"%char :: "g"%char :: "i"%char :: "t"%char :: [c])) with (if is_digit c then lookup_common [c] else k_none).
    unfold is_digit, in_codes, code. rewrite (proj2 (N.leb_le _ _) (proj1 R)), (proj2 (N.leb_le _ _) (proj2 R)). exact One.
  - apply Code; [now apply s_hex|unfold is_code in K; lia].
  - apply Code; [now apply s_decimal|unfold is_code in K; lia].
  - apply Code; [now apply s_octal|unfold is_code in K; lia].
  - unfold get_key_by_name. assert (Q : text_eqb (T "Virtual" ++ t') (T "Any") = false) by reflexivity. rewrite Q.
    assert (P0 : try_parse_key_code (T "Virtual" ++ t') = 0) by (apply Late; reflexivity). rewrite P0.
    assert (P : remove_prefix "Virtual" (T "Virtual" ++ t') = Some t').
    { unfold remove_prefix. rewrite skip_app. destruct t'; [congruence|reflexivity]. }
    rewrite P, (atoi_value t' v Nt H L). destruct (Z.leb_spec 0 (Z.of_N v)); [|exfalso; lia]. destruct (Z.leb_spec (Z.of_N v) 255); [|exfalso; lia].
    cbn [andb]. now rewrite N2Z.id.
Qed.
Print Assumptions C107_named.

(** No name has two meanings. *)
Corollary C107_unambiguous : forall t k k', names t k -> names t k' -> k = k'.
Proof. intros t k k' H H'. rewrite <- (C107_named t k H). now apply C107_named. Qed.
Print Assumptions C107_unambiguous.

(** Nothing else is a name, but for names which begin with Virtual. *)
Theorem C107_only_partial : forall t k, get_key_by_name t = k -> k <> 0 -> (forall r, t <> T "Virtual" ++ r) -> names t k.
Proof.
  intros t k H K V. unfold get_key_by_name in H. destruct (text_eqb t (T "Any")) eqn:Q.
  { apply text_eqb_eq in Q. subst t k. constructor. }
  destruct (try_parse_key_code t) as [|p] eqn:P.
  - destruct (remove_prefix "Virtual" t) as [n|] eqn:R; [apply prefix_some in R; destruct R as [-> _]; exfalso; now apply (V n)|].
    unfold lookup_prefixed in H. destruct (remove_prefix "Key" t) as [n|] eqn:Rk.
    + apply prefix_some in Rk. destruct Rk as [-> _]. destruct n as [|c [|? ?]]; try (change k_none with 0 in H; congruence).
      destruct (in_codes 65 90 c) eqn:C; [|change k_none with 0 in H; congruence]. apply n_letter; [|now apply one_char].
      unfold in_codes, code in C. apply andb_true_iff in C. rewrite !N.leb_le in C. lia.
    + destruct (remove_prefix "Digit" t) as [n|] eqn:Rd.
      * apply prefix_some in Rd. destruct Rd as [-> _]. destruct n as [|c [|? ?]]; try (change k_none with 0 in H; congruence).
        destruct (is_digit c) eqn:C; [|change k_none with 0 in H; congruence]. apply n_digit; [|now apply one_char].
        unfold is_digit, in_codes, code in C. apply andb_true_iff in C. rewrite !N.leb_le in C. lia.
      * destruct (common_in _ _ H K) as (n & -> & I). now apply common_names.
  - assert (E : try_parse_key_code t = k) by congruence. apply scan_code in E; [|exact K].
    clear P H. revert K. destruct E as [x t' v' X Nt Hn Hc|c d t' v' N0 Hn Hc|t' v' Nt Hn Hc]; intros _; [now apply n_hex|now apply n_decimal|now apply n_octal].
Qed.
Print Assumptions C107_only_partial.

Example C107_case :
  names (T "KeyQ") 0x10 /\ names (T "Q") 0x10 /\ names (T "0x9F") 159 /\ names (T "159") 159 /\ names (T "010") 8 /\
  names (T "Virtual07") (first_virtual + 7) /\ names (T "Shift") first_logical /\
  map (fun s => get_key_by_name (T s)) ["KeyQ"; "Q"; "0x9F"; "159"; "010"; "Virtual07"; "Shift"; "q"; "08"; "0x"; "61440"]%string =
    [0x10; 0x10; 159; 159; 8; first_virtual + 7; first_logical; 0; 0; 0; 0].
Proof.
  split; [apply (n_letter "Q"); [vm_compute; split; discriminate|cbn; tauto]|]. split; [apply (n_table "Q"); cbn; tauto|].
  split; [apply (n_hex "x"%char (T "9F") 159); [now left|discriminate| |split; reflexivity]|].
  { exists [9; 15]. split; [|reflexivity]. repeat constructor; vm_compute; intuition discriminate. }
  split; [apply n_decimal; [discriminate| |split; reflexivity]|].
  { exists [1; 5; 9]. split; [|reflexivity]. repeat constructor; vm_compute; intuition discriminate. }
  split; [apply (n_octal (T "10")); [discriminate| |split; reflexivity]|].
  { exists [1; 0]. split; [|reflexivity]. repeat constructor; vm_compute; intuition discriminate. }
  split; [apply (n_virtual (T "07") 7); [discriminate| |discriminate]|].
  { exists [0; 7]. split; [|reflexivity]. repeat constructor; vm_compute; intuition discriminate. }
  split; [apply (n_other "Shift"); cbn; tauto|]. vm_compute. reflexivity.
Qed.

(** Whatever follows Virtual and does not begin with a number is taken for 0, so a
    mistyped name is the key Virtual0; so is a number which is too big for 32 bits.  A
    number of one digit is the key with this digit, not the one with the code. *)
Theorem C107_virtual_refuted : exists t t' t'', (forall k, ~ names t k) /\ (forall k, ~ names t' k) /\
  get_key_by_name t = first_virtual /\ get_key_by_name t' = first_virtual /\
  number_in 10 t'' 7 /\ get_key_by_name t'' = 8.
Proof.
  exists (T "VirtualGames"), (T "Virtual4294967296"), (T "7").
  assert (V : forall r, (forall v, number_in 10 (T r) v -> 255 < v) -> forall k, names (T "Virtual" ++ T r) k -> False).
  { intros r Nr k H. remember (T "Virtual" ++ T r) as t eqn:E.
    destruct H as [|n k' I|n k' I|c k' R I|c k' R I|x t' v X Nt H K|c d t' v N0 H K|t' v Nt H K|t' v Nt H L]; try discriminate E.
    - assert (F : forallb (fun x : string * key => match skip (T "Virtual") (T (fst x)) with Some _ => false | None => true end) key_names = true)
        by (vm_compute; reflexivity).
      rewrite forallb_forall in F. specialize (F _ I). cbn [fst] in F. rewrite E, skip_app in F. discriminate F.
    - cbn in I. repeat (destruct I as [I|I]; [injection I as <- <-; discriminate E|]). exact I.
    - cbn [T list_ascii_of_string app] in E. injection E as -> -> _.
      destruct H as (l & F & _). inversion F as [|? x ? ? [Lx Hx] _]; subst. destruct Hx as [[_ Hx]|[Hx _]]; [change (N_of_ascii "V") with 86 in Hx; lia|lia].
    - apply app_inv_head in E. subst t'. specialize (Nr v H). lia. }
  split; [|split; [|split; [vm_compute; reflexivity|split; [vm_compute; reflexivity|split; [|vm_compute; reflexivity]]]]].
  - intros k H. apply (V "Games"%string) in H; [exact H|]. intros v (l & F & _). inversion F as [|? x ? ? [Lx Hx] _]; subst.
    destruct Hx as [[_ Hx]|[Hx _]]; [change (N_of_ascii "G") with 71 in Hx; lia|lia].
  - intros k H. apply (V "4294967296"%string) in H; [exact H|]. intros v Hv. apply (read_iff 10) in Hv; [|lia].
    assert (Q : read_base (Z.of_N 10) (T "4294967296") 0 = Some 4294967296%Z) by (vm_compute; reflexivity). rewrite Q in Hv. injection Hv as Hv. lia.
  - exists [7]. split; [|reflexivity]. repeat constructor; vm_compute; intuition discriminate.
Qed.
Print Assumptions C107_virtual_refuted.
