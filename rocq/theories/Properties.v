(** The properties of /verif/properties.jsonl as theorems, with their assumptions
    and a non-trivial instance beside each. *)
From Coq Require Import List NArith ZArith Bool Lia.
From Verif Require Import Base Key Match MatchSpec MatchProofs MatchLang MatchGroup MatchMore.
Import ListNotations.
Local Open Scope N_scope.

(** ** C01 Matching always terminates with a verdict *)
Theorem C01_match_terminates : forall ex sq,
  Forall (fun e => ek e <> k_none) sq ->
  exists n r anys t,
    (n <= length ex + length sq)%nat /\
    match_run ex sq ms_init n (r, anys, t) /\
    match_keys ex sq = Some (r, anys, t).
Proof. exact match_keys_total. Qed.
Print Assumptions C01_match_terminates.

Example C01_case :
  Forall (fun e => ek e <> k_none) [ev0 30 Down; ev0 48 Down; ev0 48 Up; ev0 30 Up] /\
  match_keys [ev0 30 Down; ev0 48 Down; ev0 48 UpAsync; ev0 30 UpAsync]
             [ev0 30 Down; ev0 48 Down; ev0 48 Up; ev0 30 Up] = Some (Matched, [], None).
Proof. split; [repeat constructor; discriminate|reflexivity]. Qed.

(** The restriction is needed: with key none in the sequence the loop runs for ever. *)
Theorem C01_none_key_refuted : exists ex sq, forall fuel, match_loop fuel ex sq ms_init = None.
Proof. eexists _, _. exact match_keys_none_diverges. Qed.
Print Assumptions C01_none_key_refuted.

(** ** C02 A mapping is never missed by giving up early *)
Theorem C02_prefix_not_rejected : forall ex sq more r' anys' t' r anys t,
  Forall (fun e => es e <> NoMightMatch) ex ->
  match_keys ex (sq ++ more) = Some (r', anys', t') -> r' = Matched \/ r' = MightMatch ->
  match_keys ex sq = Some (r, anys, t) -> r = Matched \/ r = MightMatch.
Proof.
  intros. destruct r; auto. exfalso.
  eapply match_prefix_not_rejected; eauto. intros ->. destruct H1; discriminate.
Qed.
Print Assumptions C02_prefix_not_rejected.

Example C02_case : exists r anys t,
  match_keys [ev0 30 Down; ev0 30 UpAsync; ev0 48 Down; ev0 48 UpAsync]
             ([ev0 30 Down] ++ [ev0 30 Up; ev0 48 Down]) = Some (Matched, [], None) /\
  match_keys [ev0 30 Down; ev0 30 UpAsync; ev0 48 Down; ev0 48 UpAsync]
             [ev0 30 Down] = Some (r, anys, t).
Proof. eexists _, _, _. split; reflexivity. Qed.

(** ** C03 Ordered sequences match exactly their key strokes in order *)
Theorem C03_ordered_sequence : forall ks sq,
  ks <> [] -> NoDup ks -> Forall real_key ks -> plain sq ->
  exists r, match_keys (ocompile ks) sq = Some (r, [], None) /\
    (r = Matched <-> presses sq = ks /\ releases_pressed sq) /\
    (r = MightMatch <-> (exists k more, presses sq ++ k :: more = ks) /\ releases_pressed sq).
Proof. exact match_ordered. Qed.
Print Assumptions C03_ordered_sequence.

(** The same for arbitrary nestings of sequences and held keys. *)
Theorem C03_nested_sequence : forall x sq,
  NoDup (ikeys x) -> Forall real_key (ikeys x) -> plain sq ->
  exists r, match_keys (icompile x) sq = Some (r, [], None) /\
    (r = Matched <-> ifulfils x sq) /\ (r = MightMatch <-> imight x sq).
Proof. exact match_iexpr. Qed.
Print Assumptions C03_nested_sequence.

Example C03_case :
  let sq := [ev0 30 Down; ev0 48 Down; ev0 30 Up; ev0 46 Down] in
  NoDup [30; 48; 46] /\ Forall real_key [30; 48; 46] /\ plain sq /\
  presses sq = [30; 48; 46] /\ match_keys (ocompile [30; 48; 46]) sq = Some (Matched, [], None).
Proof.
  repeat split; try reflexivity; try discriminate;
    repeat constructor; cbn; try discriminate; auto; intuition discriminate.
Qed.

(** ** C04 A group matches in every press order *)
Theorem C04_group : forall ks sq,
  NoDup ks -> Forall real_key ks -> plain sq -> alternating sq ->
  exists r, match_keys (gcompile ks) sq = Some (r, [], None) /\
    (r = Matched <-> gfulfils ks sq) /\ (r = MightMatch <-> gmight ks sq).
Proof. exact match_group. Qed.
Print Assumptions C04_group.

Example C04_case :
  match_keys (gcompile [30; 48; 46]) [ev0 46 Down; ev0 30 Down; ev0 48 Down; ev0 30 Up]
    = Some (Matched, [], None) /\
  match_keys (gcompile [30; 48; 46]) [ev0 46 Down; ev0 30 Down; ev0 30 Up; ev0 48 Down]
    = Some (NoMatch, [], None).
Proof. split; reflexivity. Qed.

(** ** C05 A{B} requires A to be held *)
Theorem C05_held : forall a b sq,
  a <> b -> real_key a -> real_key b -> plain sq ->
  exists r, match_keys [ev0 a Down; ev0 b Down; ev0 b UpAsync; ev0 a UpAsync] sq = Some (r, [], None) /\
    (r = Matched ->
       presses sq = [a; b] /\
       forall l v r, sq = l ++ Ev a Up v :: r -> In b (presses l)) /\
    (r = MightMatch -> releases sq = []).
Proof. exact match_held. Qed.
Print Assumptions C05_held.

Example C05_case :
  match_keys [ev0 30 Down; ev0 48 Down; ev0 48 UpAsync; ev0 30 UpAsync]
             [ev0 30 Down; ev0 48 Down; ev0 30 Up] = Some (Matched, [], None) /\
  match_keys [ev0 30 Down; ev0 48 Down; ev0 48 UpAsync; ev0 30 UpAsync]
             [ev0 30 Down; ev0 30 Up; ev0 48 Down] = Some (NoMatch, [], None).
Proof. split; reflexivity. Qed.

(** ** C06 !A never matches while A is down *)
Theorem C06_negated : forall a v ex sq r anys t,
  a <> k_none -> a <> k_timeout ->
  Forall (fun e => ~ (ek e = a /\ es e = Down)) ex ->
  Forall (fun e => ek e <> k_none) sq ->
  match_keys (Ev a Not v :: ex) sq = Some (r, anys, t) ->
  (exists e, In e sq /\ ek e = a /\ (es e = Down \/ es e = DownMatched)) ->
  r = NoMatch.
Proof. exact match_negated. Qed.
Print Assumptions C06_negated.

Example C06_case :
  match_keys [ev0 30 Not; ev0 48 Down; ev0 48 UpAsync] [ev0 30 DownMatched; ev0 48 Down]
    = Some (NoMatch, [], None) /\
  match_keys [ev0 30 Not; ev0 48 Down; ev0 48 UpAsync] [ev0 46 DownMatched; ev0 48 Down]
    = Some (Matched, [], None).
Proof. split; reflexivity. Qed.

(** ** C07 Any only stands for keyboard keys *)
Theorem C07_any_press : forall k v,
  k <> k_none -> k <> k_any ->
  match_keys [ev0 k_any Down; ev0 k_any UpAsync] [Ev k Down v] =
  if is_keyboard_key k then Some (Matched, [k], None) else Some (NoMatch, [], None).
Proof. exact match_any_press. Qed.
Print Assumptions C07_any_press.

Theorem C07_any_reports_pressed_keyboard_keys : forall ex sq r anys t,
  Forall (fun e => ek e <> k_none) sq -> Forall (fun e => ek e <> k_any) sq ->
  match_keys ex sq = Some (r, anys, t) ->
  Forall (fun k => is_keyboard_key k = true /\ exists v, In (Ev k Down v) sq) anys.
Proof. exact match_any_keys. Qed.
Print Assumptions C07_any_reports_pressed_keyboard_keys.

(** `Any !Any` (the key pressed for Any is released) only matches when the released key is one
    of those which were pressed for Any. *)
Theorem C07_any_release : forall pre a post sq anys t,
  Forall (fun e => es e <> DownAsync /\ es e <> UpAsync) pre -> ek a = k_any -> es a = Up ->
  Forall (fun e => ek e <> k_any /\ (es e = UpMatched -> is_keyboard_key (ek e) = false)) sq ->
  match_keys (pre ++ a :: post) sq = Some (Matched, anys, t) ->
  exists k v, In k anys /\ In (Ev k Up v) sq.
Proof. exact match_any_up. Qed.
Print Assumptions C07_any_release.

Example C07_release_case :
  match_keys [ev0 k_any Down; ev0 k_any Up] [ev0 30 Down; ev0 30 Up] = Some (Matched, [30], None) /\
  match_keys [ev0 k_any Down; ev0 k_any Up] [ev0 30 Down; ev0 48 Up] = Some (NoMatch, [30], None).
Proof. split; reflexivity. Qed.

Example C07_case :
  match_keys [ev0 30 Down; ev0 k_any Down; ev0 k_any UpAsync; ev0 30 UpAsync]
             [ev0 30 Down; ev0 48 Down] = Some (Matched, [48], None) /\
  match_keys [ev0 30 Down; ev0 k_any Down; ev0 k_any UpAsync; ev0 30 UpAsync]
             [ev0 30 Down; ev0 ButtonLeft Down] = Some (NoMatch, [], None).
Proof. split; reflexivity. Qed.

(** ** C08 Hold timeouts fire only when the time was reached *)
Theorem C08_timeout : forall x T h t,
  NoDup (ikeys x) -> Forall real_key (ikeys x) -> plain h -> ifulfils x h ->
  ek T = k_timeout -> (es T = Up \/ es T = Down \/ es T = Not \/ es T = NotTimeoutUpDown) ->
  match_keys (icompile x ++ [T]) h = Some (MightMatch, [], Some T) /\
  exists r, match_keys (icompile x ++ [T]) (h ++ [Ev k_timeout Up t]) = Some (r, [], None) /\
    (r = Matched \/ r = NoMatch) /\
    (r = Matched <-> if is_not_timeout (es T) then t < ev T else ev T <= t).
Proof. exact match_timeout. Qed.
Print Assumptions C08_timeout.

Example C08_case :
  ifulfils (IKey 30) [ev0 30 Down] /\
  match_keys (icompile (IKey 30) ++ [Ev k_timeout Down 500]) ([ev0 30 Down] ++ [Ev k_timeout Up 500])
    = Some (Matched, [], None) /\
  match_keys (icompile (IKey 30) ++ [Ev k_timeout Down 500]) ([ev0 30 Down] ++ [Ev k_timeout Up 499])
    = Some (NoMatch, [], None).
Proof.
  repeat split; try reflexivity.
  all: try (destruct l as [|? [|? ?]]; discriminate).
  all: destruct l as [|? [|? ?]]; discriminate.
Qed.

(** ** C38 Timeout arithmetic saturates *)
Theorem C38_timeouts_saturate :
  (forall ms, duration_to_timeout ms <= 4095) /\
  (forall ms, (0 <= ms <= 4095)%Z -> Z.of_N (duration_to_timeout ms) = ms) /\
  (forall ms, (ms < 0)%Z -> duration_to_timeout ms = 0) /\
  (forall ms, (4095 < ms)%Z -> duration_to_timeout ms = 4095) /\
  (forall a b, (a <= b)%Z -> duration_to_timeout a <= duration_to_timeout b) /\
  (forall a b, sum_timeouts a b = if a + b <=? 4095 then a + b else 4095).
Proof.
  unfold duration_to_timeout, sum_timeouts. repeat split; intros; try lia.
  destruct (N.leb_spec (a + b) 4095); lia.
Qed.
Print Assumptions C38_timeouts_saturate.

Example C38_case :
  duration_to_timeout 1000000 = 4095 /\ duration_to_timeout 250 = 250 /\
  sum_timeouts 4000 4000 = 4095.
Proof. repeat split. Qed.
