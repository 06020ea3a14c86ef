(** Properties C58 and C78 of typed texts, with their assumptions and a non-trivial case
    beside each theorem. *)
From Coq Require Import String Ascii List Arith NArith ZArith Bool Lia.
From Verif Require Import Base Key Text ParseSeq MultiStage Server ServerSpec ServerProperties Client.
From Verif Require Import TextSpec TextProofs Config MacroSpec ExpandSpec ExpandBuiltin.
From Verif Require Import Device DeviceSpec DeviceProofs DeviceProperties Typer TyperSpec TyperProofs TyperServer TyperXkb.
Import ListNotations.
Local Open Scope N_scope.

(** The string typer with a dictionary.  Texts which are no UTF-8 are an error in the
    code; the theorems are about texts which are. *)
Definition typer_of (d : dictionary) (t : text) : list stroke :=
  match type_string d t with Some l => l | None => [] end.

(** What applications read after [keymapperctl --type t], when the server had sent [calls]
    before. *)
Definition read_after (lay : layout) (d : dictionary) (calls : list vcall) (t : text) : option (list N * option N) :=
  match parse_injected (typer_of d) (quoted t) with
  | None => None
  | Some l => Some (reading lay (fun _ => false) None (strokes_of (kn_delivered (kernel_run (told (calls ++ map VSend l))))))
  end.
Definition chars (s : string) : list N := map N_of_ascii (list_ascii_of_string s).

(** ** C58 keymapperctl --type types the text *)

(** The text consists of characters other than the quotation mark; the dictionary is right
    for the layout, and characters which it lacks can be entered by their number; nothing
    waits in the server to be sent and no modifier is held.  Then the client takes the
    request, the server sends the whole sequence, and what the virtual keyboard adds to
    what applications get reads as the text, with its escapes \n, \r and \t replaced. *)
Theorem C58_typed_partial : forall write_ok create_ok send_ok clock lay d cs s calls,
  (forall n, write_ok n = true) -> (forall n, send_ok n = true) ->
  right_for lay d -> (forall c, In c (unescaped cs) -> number_keys lay \/ d c <> None) ->
  Forall is_char cs -> ~ In 34 cs ->
  sv_buf s = [] -> sv_sending s = false ->
  Forall loop_call calls -> (forall k, k < 0x200 -> Forall (stroke_call k) calls) ->
  (forall m, is_modifier m = true -> holds m calls = false) ->
  let seen l := kn_delivered (kernel_run (vs_log (vrun write_ok create_ok l new_vdevices))) in
  exists l, parse_injected (typer_of d) (quoted (encoded cs)) = Some l /\
    delivered (sv_trace (server_run clock send_ok [SMessage (MInjectOutput l); SFlush] s)) = delivered (sv_trace s) ++ l /\
    exists t, seen (calls ++ map VSend l) = seen calls ++ t /\
      reading lay (fun _ => false) None (strokes_of t) = (unescaped cs, None).
Proof.
  intros wo co so clock lay d cs s calls Hw Hs HR HN Fc Nq Sb Ss LC SC HM seen.
  apply (typed_text wo co so clock Hw Hs lay d cs (typer_of d) s calls); auto.
  unfold typer_of. now rewrite type_encoded.
Qed.
Print Assumptions C58_typed_partial.

(** Without a backslash it is the text itself. *)
Corollary C58_exactly_partial : forall write_ok create_ok lay d cs calls,
  (forall n, write_ok n = true) ->
  right_for lay d -> (forall c, In c cs -> number_keys lay \/ d c <> None) ->
  Forall is_char cs -> ~ In 34 cs -> ~ In 92 cs ->
  Forall loop_call calls -> (forall k, k < 0x200 -> Forall (stroke_call k) calls) ->
  (forall m, is_modifier m = true -> holds m calls = false) ->
  let seen l := kn_delivered (kernel_run (vs_log (vrun write_ok create_ok l new_vdevices))) in
  exists l, parse_injected (typer_of d) (quoted (encoded cs)) = Some l /\
    exists t, seen (calls ++ map VSend l) = seen calls ++ t /\
      reading lay (fun _ => false) None (strokes_of t) = (cs, None).
Proof.
  intros wo co lay d cs calls Hw HR HN Fc Nq Nb LC SC HM seen.
  rewrite <- (unescaped_plain cs Nb) in HN.
  destruct (C58_typed_partial wo co sends ms_clock lay d cs init_server calls Hw (fun _ => eq_refl) HR HN Fc Nq eq_refl eq_refl LC SC HM)
    as (l & P & _ & t & D & R).
  exists l. split; [exact P|]. exists t. split; [exact D|]. rewrite (unescaped_plain cs Nb) in R. exact R.
Qed.
Print Assumptions C58_exactly_partial.

(** *** The typer which knows no layout, on the keyboard of the United States *)

Definition numbers_upto (n : nat) : list N := map N.of_nat (seq 0 n).
Definition right_at (lay : layout) (d : dictionary) (c : N) : bool :=
  match d c with
  | None => true
  | Some [(k, m)] => (m <? 8) && typing_keyb k && match lay k m with Some x => x =? c | None => false end
  | Some _ => false
  end.
Theorem C58_generic_us : right_for us_layout generic_dictionary /\ number_keys us_layout.
Proof.
  split.
  - assert (F : forallb (right_at us_layout generic_dictionary) (numbers_upto 128) = true) by (vm_compute; reflexivity).
    intros c e H. assert (L : c < 128).
    { destruct (N.ltb_spec c 128) as [L|L]; [exact L|]. exfalso. revert H. unfold generic_dictionary.
      repeat (match goal with |- context [c <=? ?n] => replace (c <=? n) with false by (symmetry; apply N.leb_gt; lia) end;
              rewrite andb_false_r).
      repeat match goal with |- context [c =? ?n] => replace (c =? n) with false by (symmetry; apply N.eqb_neq; lia) end.
      discriminate. }
    rewrite forallb_forall in F. assert (I : In c (numbers_upto 128)).
    { unfold numbers_upto. apply in_map_iff. exists (N.to_nat c). split; [apply N2Nat.id|]. apply List.in_seq. lia. }
    specialize (F c I). unfold right_at in F. rewrite H in F. destruct e as [|[k m] [|? ?]]; try discriminate.
    apply andb_true_iff in F. destruct F as [F Q]. apply andb_true_iff in F. destruct F as [Lm Tk]. exists k, m.
    split; [reflexivity|]. split; [now apply N.ltb_lt|]. split; [now apply typing_keyb_ok|].
    destruct (us_layout k m) as [x|]; [|discriminate]. apply N.eqb_eq in Q. now subst.
  - repeat split. intros i k H. do 16 (destruct i as [|i]; [injection H as <-; reflexivity|]). destruct i; discriminate.
Qed.
Print Assumptions C58_generic_us.

Example C58_us_case :
  let cs := chars "Keys & " ++ [0x4B; 0xE4; 0x73; 0x65; 32; 0x1F600; 92; 116; 46] in
  Forall is_char cs /\ ~ In 34 cs /\
  read_after us_layout generic_dictionary [VSend (ev0 ShiftLeft Down); VSend (ev0 ShiftLeft Up)] (encoded cs) =
    Some (chars "Keys & " ++ [0x4B; 0xE4; 0x73; 0x65; 32; 0x1F600; 9; 46], None).
Proof.
  cbn zeta. split.
  - apply Forall_forall. intros c H. vm_compute in H. repeat (destruct H as [<-|H]; [vm_compute; intuition discriminate|]). destruct H.
  - split; [|vm_compute; reflexivity]. intros H. vm_compute in H. repeat (destruct H as [H|H]; [discriminate|]). exact H.
Qed.

(** *** The typer which asks xkb *)

(** The dictionary made from a keymap is right for every keyboard on which the keys which
    the typer knows give the characters of the keymap. *)
Theorem C58_xkb_partial : forall to_utf32 compose keys lay, plain_keymap keys ->
  (forall k m c, xkb_layout to_utf32 keys k m = Some c -> lay k m = Some c) ->
  right_for lay (xkb_dictionary to_utf32 compose keys []).
Proof.
  intros to_utf32 compose keys lay P Ex c e H. destruct (xkb_right to_utf32 compose keys P c e H) as (k & m & Q & L & Tk & Hc).
  exists k, m. repeat (split; [assumption|]). now apply Ex.
Qed.
Print Assumptions C58_xkb_partial.

(** Symbols of a small keymap: the characters of Latin 1, and others from 0x1000000 on *)
Definition symbol_char (s : N) : N := if s <? 0x100 then s else if 0x1000000 <=? s then s - 0x1000000 else 0.
Definition level1 (a : N) : level := Lv [a] [0].
Definition shifted (a b : N) : xlayout := Xl 1 [level1 a; Lv [b] [1]].
Definition german : keymap :=
  [Xk "AD01" [Xl 129 [level1 113; Lv [81] [1]; Lv [64] [128]; Lv [0x10003A9] [129]]];
   Xk "AD06" [shifted 122 90]; Xk "AB01" [shifted 121 89]; Xk "AC11" [shifted 0xE4 0xC4];
   Xk "FK01" [Xl 0 [Lv [0xFFBE] [0]]]; Xk "SPCE" [Xl 0 [level1 32]]; Xk "I255" []].
Definition german_layout : layout := fun k m =>
  match xkb_layout symbol_char german k m with Some c => Some c | None => if typing_keyb k && (0x46 <? k) then us_layout k m else None end.
Example C58_xkb_case :
  plain_keymap german /\
  (forall k m c, xkb_layout symbol_char german k m = Some c -> german_layout k m = Some c) /\
  read_after german_layout (xkb_dictionary symbol_char None german []) [] (encoded [0x7A; 0xE4; 64; 32; 0x59; 0x3A9]) =
    Some ([0x7A; 0xE4; 64; 32; 0x59; 0x3A9], None).
Proof.
  split; [split|split].
  - repeat constructor; cbn; intuition discriminate.
  - repeat (constructor; [split; [cbn; lia|]|]); [| | | | | |constructor|constructor];
    repeat (first [apply Forall_nil|apply Forall_cons]); intros mask r Q; injection Q as <- <-;
    (split; [reflexivity|split; [reflexivity|]]); intros l' H H'; cbn in H;
    repeat (destruct H as [<-|H]; [first [reflexivity|cbn in H'; destruct H' as [H'|[]]; discriminate H']|]); destruct H.
  - intros k m c H. unfold german_layout. now rewrite H.
  - vm_compute. reflexivity.
Qed.

(** *** Where it does not hold *)

(** A quotation mark ends the string: the rest is read as keys, or makes the request fail. *)
Theorem C58_quote_refuted : exists cs cs', Forall is_char cs /\ Forall is_char cs' /\
  right_for us_layout generic_dictionary /\ number_keys us_layout /\
  read_after us_layout generic_dictionary [] (encoded cs) = Some (chars "abc", None) /\ cs <> chars "abc" /\
  read_after us_layout generic_dictionary [] (encoded cs') = None.
Proof.
  exists (chars "a""B""c"), (chars "say ""hi"""). destruct C58_generic_us as [R K].
  assert (C : forall l, forallb (fun c => (0 <? c) && (c <? 128)) l = true -> Forall is_char l).
  { intros l H. apply Forall_forall. intros c I. rewrite forallb_forall in H. specialize (H c I).
    apply andb_true_iff in H. rewrite !N.ltb_lt in H. unfold is_char. lia. }
  split; [apply C; reflexivity|]. split; [apply C; reflexivity|]. split; [exact R|]. split; [exact K|].
  split; [vm_compute; reflexivity|]. split; [discriminate|]. vm_compute. reflexivity.
Qed.
Print Assumptions C58_quote_refuted.

(** A backslash before n, r or t is an escape, also in a path of Windows; there is no way
    to write these two characters. *)
Theorem C58_escape_refuted : exists cs, ~ In 34 cs /\ right_for us_layout generic_dictionary /\ number_keys us_layout /\
  read_after us_layout generic_dictionary [] (encoded cs) = Some (chars "C:" ++ 13 :: chars "ew", None) /\
  cs = chars "C:\new".
Proof.
  exists (chars "C:\new"). destruct C58_generic_us as [R K]. split; [|split; [exact R|split; [exact K|split; [vm_compute; reflexivity|reflexivity]]]].
  intros H. vm_compute in H. repeat (destruct H as [H|H]; [discriminate|]). exact H.
Qed.
Print Assumptions C58_escape_refuted.

(** No text at all gives a backslash and an n. *)
Lemma unescaped_never : forall l a b, unescaped l <> a ++ 92 :: 110 :: b.
Proof.
  intros l. remember (length l) as n eqn:E. assert (L : (length l <= n)%nat) by lia. clear E. revert l L.
  induction n as [|n IH]; intros [|x l] L a b; try (destruct a; discriminate); try (cbn in L; lia). cbn [length] in L.
  destruct (N.eq_dec x 92) as [->|Nx].
  - destruct l as [|y l]; [destruct a as [|? [|? ?]]; discriminate|]. cbn [length] in L.
    change (unescaped (92 :: y :: l)) with (if (y =? 110) || (y =? 114) then 13 :: unescaped l
      else if y =? 116 then 9 :: unescaped l else 92 :: unescaped (y :: l)).
    destruct (N.eqb_spec y 110) as [Y1|Y1]; cbn [orb];
      [destruct a; [discriminate|]; intros [= _ Q]; revert Q; apply IH; lia|].
    destruct (N.eqb_spec y 114) as [Y2|Y2]; [destruct a; [discriminate|]; intros [= _ Q]; revert Q; apply IH; lia|].
    destruct (N.eqb_spec y 116) as [Y3|Y3]; [destruct a; [discriminate|]; intros [= _ Q]; revert Q; apply IH; lia|].
    destruct a as [|a0 a]; [|intros [= _ Q]; exact (IH (y :: l) ltac:(cbn; lia) a b Q)]. intros [= Q]. change (unescaped (y :: l) = 110 :: b) in Q.
    destruct (N.eq_dec y 92) as [->|Ny].
    + destruct l as [|z l]; [discriminate Q|]. change (unescaped (92 :: z :: l)) with (if (z =? 110) || (z =? 114) then 13 :: unescaped l
        else if z =? 116 then 9 :: unescaped l else 92 :: unescaped (z :: l)) in Q.
      destruct ((z =? 110) || (z =? 114)); [discriminate Q|]. destruct (z =? 116); discriminate Q.
    + rewrite unescaped_other in Q by exact Ny. injection Q as Q _. congruence.
  - rewrite unescaped_other by exact Nx. destruct a as [|a0 a]; intros [= Q0 Q]; [congruence|]. revert Q. apply IH. lia.
Qed.
Theorem C58_untypable_refuted : exists cs, Forall is_char cs /\ ~ In 34 cs /\ forall l, unescaped l <> cs.
Proof.
  exists (chars "C:\new"). split; [|split].
  - apply Forall_forall. intros c H. vm_compute in H. repeat (destruct H as [<-|H]; [vm_compute; intuition discriminate|]). destruct H.
  - intros H. vm_compute in H. repeat (destruct H as [H|H]; [discriminate|]). exact H.
  - intros l. exact (unescaped_never l (chars "C:") (chars "ew")).
Qed.
Print Assumptions C58_untypable_refuted.

(** A modifier which is held counts: the sequence begins with a request to release all
    keys, which is a state of a key no device knows. *)
Theorem C58_modifier_refuted : exists cs calls, Forall is_char cs /\ ~ In 34 cs /\ Forall loop_call calls /\
  right_for us_layout generic_dictionary /\ number_keys us_layout /\
  read_after us_layout generic_dictionary calls (encoded cs) = Some (chars "LS", None) /\ cs = chars "ls".
Proof.
  exists (chars "ls"), [VSend (ev0 ShiftLeft Down)]. destruct C58_generic_us as [R K].
  split; [repeat constructor|]. split; [vm_compute; intuition discriminate|]. split; [repeat constructor|].
  split; [exact R|]. split; [exact K|]. split; [vm_compute; reflexivity|reflexivity].
Qed.
Print Assumptions C58_modifier_refuted.

(** Characters which no key has are entered by their number with the keys which are U, A
    to F on the keyboard of the United States.  Elsewhere, as on the keyboard of Dvorak,
    this types other characters, though the dictionary is right. *)
Definition dvorak : keymap :=
  [Xk "AC01" [shifted 97 65]; Xk "AB03" [shifted 106 74]; Xk "AD07" [shifted 103 71]; Xk "SPCE" [Xl 0 [level1 32]]; Xk "I255" []].
Definition dvorak_layout : layout := fun k m =>
  match xkb_layout symbol_char dvorak k m with Some c => Some c | None => if 0x46 <? k then us_layout k m else None end.
Theorem C58_number_refuted : exists lay d cs, right_for lay d /\ Forall is_char cs /\ ~ In 34 cs /\
  cs = [0x20AC] /\ read_after lay d [] (encoded cs) = Some (chars "20aj ", None).
Proof.
  exists dvorak_layout, (xkb_dictionary symbol_char None dvorak []), [0x20AC]. split.
  - apply C58_xkb_partial.
    + split; [repeat constructor; cbn; intuition discriminate|].
      repeat (constructor; [split; [cbn; lia|]|]); [| | | |constructor|constructor];
      repeat (first [apply Forall_nil|apply Forall_cons]); intros mask r Q; injection Q as <- <-;
      (split; [reflexivity|split; [reflexivity|]]); intros l' H H'; cbn in H;
      repeat (destruct H as [<-|H]; [first [reflexivity|cbn in H'; destruct H' as [H'|[]]; discriminate H']|]); destruct H.
    + intros k m c H. unfold dvorak_layout. now rewrite H.
  - split; [repeat constructor; vm_compute; intuition discriminate|]. split; [vm_compute; intuition discriminate|].
    split; [reflexivity|]. vm_compute. reflexivity.
Qed.
Print Assumptions C58_number_refuted.

(** The characters of a second layout are taken for reachable while the first is active. *)
Theorem C58_second_layout_refuted : exists keys cs, Forall is_char cs /\ ~ In 34 cs /\
  cs = [0x44F] /\
  read_after (xkb_layout symbol_char keys) (xkb_dictionary symbol_char None keys []) [] (encoded cs) = Some (chars "z", None).
Proof.
  exists [Xk "AB01" [shifted 122 90; shifted 0x100044F 0x100042F]; Xk "I255" []], [0x44F].
  split; [repeat constructor; vm_compute; intuition discriminate|]. split; [vm_compute; intuition discriminate|].
  split; [reflexivity|]. vm_compute. reflexivity.
Qed.
Print Assumptions C58_second_layout_refuted.

(** Modifiers other than Shift, Alt and AltGr are left out: here the braces which the
    layout Neo has on the level of Mod3 (32). *)
Theorem C58_level_refuted : exists keys cs, Forall is_char cs /\ ~ In 34 cs /\
  cs = chars "{" /\
  read_after (xkb_layout symbol_char keys) (xkb_dictionary symbol_char None keys []) [] (encoded cs) = Some (chars "a", None).
Proof.
  exists [Xk "AC03" [Xl 33 [level1 97; Lv [65] [1]; Lv [123] [32]]]; Xk "I255" []], (chars "{").
  split; [repeat constructor; vm_compute; intuition discriminate|]. split; [vm_compute; intuition discriminate|].
  split; [reflexivity|]. vm_compute. reflexivity.
Qed.
Print Assumptions C58_level_refuted.

(** ** C78 length[] is the number of characters a string types *)

(** The bytes of the string are counted, which are as many as the characters typed when
    all are ASCII and none begins an escape. *)
Lemma encoded_ascii l : Forall (fun c => c < 0x80) l -> length (encoded l) = length l.
Proof.
  induction 1 as [|c l H _ IH]; [reflexivity|]. unfold encoded in *. cbn [flat_map length]. rewrite app_length, IH. unfold utf8.
  apply N.ltb_lt in H. now rewrite H.
Qed.
Theorem C78_partial : forall cs t, Forall (fun c => c < 0x80) cs -> ~ In 92 cs -> N.of_nat (length cs) < 10 ^ 40 ->
  numeral (Z.of_nat (length (unescaped cs))) t ->
  apply_builtin_macro (T "length") [quoted (encoded cs)] = POk t.
Proof.
  intros cs t A B L H. rewrite (unescaped_plain cs B) in H. apply builtin_applied.
  change (quoted (encoded cs)) with (""""%char :: encoded cs ++ [""""%char]).
  apply b_length; [reflexivity| |]; now rewrite encoded_ascii.
Qed.
Print Assumptions C78_partial.
Example C78_case : let cs := chars "Cat & dog's" in
  Forall (fun c => c < 0x80) cs /\ ~ In 92 cs /\ apply_builtin_macro (T "length") [quoted (encoded cs)] = POk (T "11") /\
  read_after us_layout generic_dictionary [] (encoded cs) = Some (cs, None) /\ length cs = 11%nat.
Proof.
  cbn zeta. split; [apply Forall_forall; intros c H; vm_compute in H; repeat (destruct H as [<-|H]; [reflexivity|]); destruct H|].
  split; [intros H; vm_compute in H; repeat (destruct H as [H|H]; [discriminate|]); exact H|]. vm_compute. auto.
Qed.

(** Other characters count several times, and escapes twice: the macro of README.md which
    replaces a typed word removes a character in front of it. *)
Definition substitute_macro : text := T "? ""$0"" >> repeat[Backspace, sub[length[""$0""], 1]] ""$1""".
Theorem C78_refuted : exists cs cs',
  Forall is_char cs /\ Forall is_char cs' /\
  read_after us_layout generic_dictionary [] (encoded cs) = Some (cs, None) /\ length cs = 4%nat /\
  apply_builtin_macro (T "length") [quoted (encoded cs)] = POk (T "5") /\
  preprocess [(T "substitute", substitute_macro)] (T "substitute[" ++ quoted (encoded cs) ++ T ", ""Brot""]") =
    POk (T "? " ++ quoted (encoded cs) ++ T " >> Backspace Backspace Backspace Backspace  ""Brot""") /\
  read_after us_layout generic_dictionary [] (encoded cs') = Some ([97; 9], None) /\
  apply_builtin_macro (T "length") [quoted (encoded cs')] = POk (T "3").
Proof.
  exists [0x4B; 0xE4; 0x73; 0x65], (chars "a\t"). repeat split; try (vm_compute; reflexivity);
  repeat constructor; vm_compute; intuition discriminate.
Qed.
Print Assumptions C78_refuted.
