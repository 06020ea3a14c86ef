(** C58 with dead keys and the compose key: texts are typed also with characters which
    take several strokes. *)
From Coq Require Import String Ascii List Arith NArith ZArith Bool Lia.
From Verif Require Import Base Key Text ParseSeq MultiStage Server ServerSpec ServerProperties Client.
From Verif Require Import Device DeviceSpec DeviceProofs DeviceProperties Typer TyperSpec TyperProofs TyperServer TyperXkb TyperProperties.
From Verif Require Import TyperComposeSpec TyperComposeProofs.
Import ListNotations.
Local Open Scope N_scope.

(** As C58_typed_partial, for an application which composes symbols with a table. *)
Theorem C58_composed_partial : forall write_ok create_ok send_ok clock char_of table lay d cs s calls,
  (forall n, write_ok n = true) -> (forall n, send_ok n = true) ->
  right_composed char_of table lay d ->
  (forall c, In c (unescaped cs) -> number_keys (char_layout char_of lay) \/ d c <> None) ->
  Forall is_char cs -> ~ In 34 cs ->
  sv_buf s = [] -> sv_sending s = false ->
  Forall loop_call calls -> (forall k, k < 0x200 -> Forall (stroke_call k) calls) ->
  (forall m, is_modifier m = true -> holds m calls = false) ->
  let seen l := kn_delivered (kernel_run (vs_log (vrun write_ok create_ok l new_vdevices))) in
  exists l, parse_injected (typer_of d) (quoted (encoded cs)) = Some l /\
    delivered (sv_trace (server_run clock send_ok [SMessage (MInjectOutput l); SFlush] s)) = delivered (sv_trace s) ++ l /\
    exists t, seen (calls ++ map VSend l) = seen calls ++ t /\
      composed char_of table lay (Pending []) (pressed (fun _ => false) (strokes_of t)) = (unescaped cs, Pending []).
Proof.
  intros wo co so clock char_of table lay d cs s calls Hw Hs HR HN Fc Nq Sb Ss LC SC HM seen.
  destruct (typed_keys wo co so clock Hw Hs d cs (typer_of d) s calls) as (l & P & D & t & Q & R); auto.
  - eapply composed_good; exact HR.
  - unfold typer_of. now rewrite type_encoded.
  - exists l. split; [exact P|]. split; [exact D|]. exists t. split; [exact Q|]. rewrite R. apply chars_composed; auto.
    now apply unescaped_chars.
Qed.
Print Assumptions C58_composed_partial.

(** The dictionary made from a keymap and a compose table is right for every keyboard on
    which the known keys give the symbols of the keymap, and the compose key the symbol
    Multi_key. *)
Theorem C58_table_partial : forall char_of compose keys table lay,
  plain_keymap keys -> plain_table char_of keys table ->
  (forall k m s, xkb_symbols keys k m = Some s -> lay k m = Some s) ->
  (forall k m, compose = Some (k, m) -> typing_key k /\ m < 8 /\ lay k m = Some multi_key) ->
  right_composed char_of table lay (xkb_dictionary char_of compose keys (iterated table)).
Proof.
  intros char_of compose keys table lay P T Ex Hc. apply composed_right; auto. intros [k m] Q. exact (Hc k m Q).
Qed.
Print Assumptions C58_table_partial.

(** It has every character of a known key, and every one for which the table has a
    sequence of symbols of known keys and the compose key. *)
Theorem C58_reaches : forall char_of compose keys table, one_symbol_each char_of keys ->
  let d := xkb_dictionary char_of compose keys (iterated table) in
  (forall s, on_known_key keys s -> char_of s <> 0 -> d (char_of s) <> None) /\
  (forall q c r, In (q, c :: r) table -> q <> [] -> Forall (reachable compose keys) q -> d c <> None).
Proof. intros. now apply reached. Qed.
Print Assumptions C58_reaches.

(** *** A case *)

(** What applications read after [keymapperctl --type t] *)
Definition composed_after (char_of : N -> N) (table : compose_table) (lay : symbols) (d : dictionary) (t : text)
    : option (list N * entering) :=
  match parse_injected (typer_of d) (quoted t) with
  | None => None
  | Some l => Some (composed char_of table lay (Pending [])
      (pressed (fun _ => false) (strokes_of (kn_delivered (kernel_run (told (map VSend l)))))))
  end.
Definition dead_circumflex : N := 0xFE52.
Definition dead_acute : N := 0xFE51.
(** A keyboard with dead keys; the key after Space composes. *)
Definition with_dead : keymap :=
  [Xk "TLDE" [shifted dead_circumflex 0xB0]; Xk "AE12" [shifted dead_acute 96]; Xk "AC01" [shifted 97 65]; Xk "AD03" [shifted 101 69];
   Xk "AB07" [Xl 129 [level1 109; Lv [77] [1]; Lv [0xB5] [128]]]; Xk "AD09" [shifted 111 79]; Xk "SPCE" [Xl 0 [level1 32]]; Xk "I255" []].
Definition menu_key : key := 0x7F.
Definition dead_symbols : symbols := fun k m =>
  match xkb_symbols with_dead k m with Some s => Some s | None => if (k =? menu_key) && (m =? 0) then Some multi_key else None end.
Definition dead_table : compose_table :=
  [([dead_circumflex; 97], [0xE2]); ([dead_circumflex; 32], [94]); ([dead_acute; 69], [0xC9]); ([dead_acute; dead_circumflex; 97], [0x1EA5]);
   ([multi_key; 97; 101], [0xE6]); ([multi_key; 111; 111], [0xB0]); ([multi_key; 111; 101], [0x153])].

Lemma with_dead_plain : plain_keymap with_dead.
Proof.
  split; [repeat constructor; cbn; intuition discriminate|].
  repeat (constructor; [split; [cbn; lia|]|]); [| | | | | | |constructor|constructor];
  repeat (first [apply Forall_nil|apply Forall_cons]); intros mask r Q; injection Q as <- <-;
  (split; [reflexivity|split; [reflexivity|]]); intros l' H H'; cbn in H;
  repeat (destruct H as [<-|H]; [first [reflexivity|cbn in H'; destruct H' as [H'|[]]; discriminate H']|]); destruct H.
Qed.
Lemma dead_table_plain : plain_table symbol_char with_dead dead_table.
Proof.
  split; [|split].
  - intros a b Ha Hb. cbn in Ha, Hb.
    repeat (destruct Ha as [<-|Ha]; [repeat (destruct Hb as [<-|Hb]; [reflexivity || (intros Q; discriminate Q)|]); destruct Hb|]). destruct Ha.
  - repeat (constructor; [eexists _, _; split; [reflexivity|intros _; reflexivity]|]). constructor.
  - repeat (constructor; [eexists; reflexivity|]). constructor.
Qed.
Example C58_dead_case :
  plain_keymap with_dead /\ plain_table symbol_char with_dead dead_table /\
  (forall k m s, xkb_symbols with_dead k m = Some s -> dead_symbols k m = Some s) /\
  typing_key menu_key /\ dead_symbols menu_key 0 = Some multi_key /\
  let d := xkb_dictionary symbol_char (Some (menu_key, 0)) with_dead (iterated dead_table) in
  map d [0xE2; 0x1EA5; 0x153; 0xB0] =
    [Some [(0x29, 0); (0x1E, 0)]; Some [(0x0D, 0); (0x29, 0); (0x1E, 0)]; Some [(menu_key, 0); (0x18, 0); (0x12, 0)]; Some [(0x29, 1)]] /\
  composed_after symbol_char dead_table dead_symbols d (encoded [0x61; 0xE2; 94; 0x153; 0xC9; 0xB5; 0x1EA5; 0xE6; 32; 0xB0]) =
    Some ([0x61; 0xE2; 94; 0x153; 0xC9; 0xB5; 0x1EA5; 0xE6; 32; 0xB0], Pending []).
Proof.
  split; [exact with_dead_plain|]. split; [exact dead_table_plain|]. split; [intros k m s H; unfold dead_symbols; now rewrite H|].
  split; [repeat split; reflexivity|]. split; [reflexivity|]. cbv zeta. split; vm_compute; reflexivity.
Qed.
Example C58_reaches_case : one_symbol_each symbol_char with_dead /\ on_known_key with_dead 0xB0 /\
  Forall (reachable (Some (menu_key, 0)) with_dead) [multi_key; 111; 101].
Proof.
  assert (K : forall s, on_known_key with_dead s \/ s <> 111 /\ s <> 101 /\ s <> 0xB0).
  { intros s. destruct (N.eq_dec s 111) as [->|H1]; [left|destruct (N.eq_dec s 101) as [->|H2]; [left|destruct (N.eq_dec s 0xB0) as [->|H3]; [left|auto]]].
    - exists (Xk "AD09" [shifted 111 79]), (shifted 111 79), (level1 111), []. repeat split; cbn; auto 10; discriminate.
    - exists (Xk "AD03" [shifted 101 69]), (shifted 101 69), (level1 101), []. repeat split; cbn; auto 10; discriminate.
    - exists (Xk "TLDE" [shifted dead_circumflex 0xB0]), (shifted dead_circumflex 0xB0), (Lv [0xB0] [1]), []. repeat split; cbn; auto 10; discriminate. }
  split; [|split].
  - intros s s' (x & y & l & r & Hx & Hy & Hl & Es) (x' & y' & l' & r' & Hx' & Hy' & Hl' & Es') N0 Q.
    assert (Ss : In s [dead_circumflex; 0xB0; dead_acute; 96; 97; 65; 101; 69; 109; 77; 0xB5; 111; 79; 32]).
    { cbn in Hx. repeat (destruct Hx as [<-|Hx]; [cbn in Hy; repeat (destruct Hy as [<-|Hy]; [cbn in Hl;
        repeat (destruct Hl as [<-|Hl]; [injection Es as <- <-; cbn; tauto|]); destruct Hl|]); destruct Hy|]). destruct Hx. }
    assert (Ss' : In s' [dead_circumflex; 0xB0; dead_acute; 96; 97; 65; 101; 69; 109; 77; 0xB5; 111; 79; 32]).
    { cbn in Hx'. repeat (destruct Hx' as [<-|Hx']; [cbn in Hy'; repeat (destruct Hy' as [<-|Hy']; [cbn in Hl';
        repeat (destruct Hl' as [<-|Hl']; [injection Es' as <- <-; cbn; tauto|]); destruct Hl'|]); destruct Hy'|]). destruct Hx'. }
    clear -Ss Ss' N0 Q. cbn in Ss, Ss'.
    repeat (destruct Ss as [<-|Ss]; [try (exfalso; apply N0; reflexivity);
      repeat (destruct Ss' as [<-|Ss']; [reflexivity || discriminate Q|]); destruct Ss'|]). destruct Ss.
  - destruct (K 0xB0) as [H|H]; [exact H|intuition congruence].
  - constructor; [right; split; [reflexivity|discriminate]|]. constructor; [|constructor; [|constructor]]; left.
    + destruct (K 111) as [H|H]; [exact H|intuition congruence].
    + destruct (K 101) as [H|H]; [exact H|intuition congruence].
Qed.

(** *** Where it does not hold *)

(** Of a sequence which gives several characters the first is recorded: here a key of
    Arabic keyboards whose ligature the table of libX11 splits into two letters.  The
    first letter, when no key has it, is typed with the second one after it. *)
Theorem C58_ligature_refuted : exists keys table, plain_keymap keys /\ strict_prefix_free table /\
  let lay := xkb_symbols keys in let d := xkb_dictionary symbol_char None keys (iterated table) in
  composed_after symbol_char table lay d (encoded [0x644]) = Some ([0x644; 0x627], Pending []) /\
  composed_after symbol_char table lay d (encoded [0xFEFB]) = Some ([0x644; 0x627], Pending []).
Proof.
  exists [Xk "AB05" [Xl 0 [level1 0x100FEFB]]; Xk "I255" []], [([0x100FEFB], [0x644; 0x627])]. split; [|split].
  - split; [repeat constructor; cbn; intuition discriminate|].
    repeat (constructor; [split; [cbn; lia|]|]); [|constructor|constructor];
    repeat (first [apply Forall_nil|apply Forall_cons]); intros mask r Q; injection Q as <- <-;
    (split; [reflexivity|split; [reflexivity|]]); intros l' H H'; cbn in H; destruct H as [<-|[]]; reflexivity.
  - intros a b [<-|[]] [<-|[]] _. reflexivity.
  - cbv zeta. split; vm_compute; reflexivity.
Qed.
Print Assumptions C58_ligature_refuted.

(** Of two symbols which are the same character only the first has a stroke: sequences
    with the other one are not used, so the character is not typed as composed.  Here
    the apostrophe, also as the symbol 0x1000027. *)
Theorem C58_same_refuted : exists keys table q c, plain_keymap keys /\ plain_table symbol_char keys table /\
  In (q, [c]) table /\ q <> [] /\ Forall (reachable None keys) q /\
  xkb_dictionary symbol_char None keys (iterated table) c = None.
Proof.
  exists [Xk "AC11" [shifted 39 dead_acute]; Xk "BKSL" [shifted 0x1000027 96]; Xk "I255" []],
         [([dead_acute; 0x1000027], [0xB4])], [dead_acute; 0x1000027], 0xB4.
  split; [|split; [|split; [|split; [|split]]]].
  - split; [repeat constructor; cbn; intuition discriminate|].
    repeat (constructor; [split; [cbn; lia|]|]); [| |constructor|constructor];
    repeat (first [apply Forall_nil|apply Forall_cons]); intros mask r Q; injection Q as <- <-;
    (split; [reflexivity|split; [reflexivity|]]); intros l' H H'; cbn in H;
    repeat (destruct H as [<-|H]; [first [reflexivity|cbn in H'; destruct H' as [H'|[]]; discriminate H']|]); destruct H.
  - split; [|split].
    + intros a b [<-|[]] [<-|[]] _. reflexivity.
    + constructor; [eexists _, _; split; [reflexivity|intros _; reflexivity]|constructor].
    + constructor; [eexists; reflexivity|constructor].
  - now left.
  - discriminate.
  - constructor; [left|constructor; [left|constructor]].
    + exists (Xk "AC11" [shifted 39 dead_acute]), (shifted 39 dead_acute), (Lv [dead_acute] [1]), []. repeat split; cbn; auto 10; discriminate.
    + exists (Xk "BKSL" [shifted 0x1000027 96]), (shifted 0x1000027 96), (level1 0x1000027), []. repeat split; cbn; auto 10; discriminate.
  - vm_compute. reflexivity.
Qed.
Print Assumptions C58_same_refuted.
