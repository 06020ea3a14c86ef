(** Specification side of the properties of the client: what can be read off the trace of
    what it got to know and what it did. *)
From Coq Require Import String Ascii List Arith NArith ZArith Bool.
From Verif Require Import Base Key Text Stage Config Serial Client.
Import ListNotations.
Local Open Scope N_scope.

Definition trace := list ceffect.

(** ** What the server was told *)

(** The configuration of the current connection and the contexts which were set active
    since it was sent. *)
Definition held_step (h : option config * list Z) (e : ceffect) : option config * list Z :=
  match e with
  | FSent (SConfig g) => (Some g, [])
  | FSent (SActive l) => (fst h, l)
  | FLost => (None, [])
  | _ => h
  end.
Definition held (t : trace) : option config * list Z := fold_left held_step t (None, []).

(** ** What the user did *)

Definition window_of (t : trace) : window :=
  fold_left (fun w e => match e with FWindow w' => w' | _ => w end) t (Win [] [] []).
Definition active_of (t : trace) : bool :=
  fold_left (fun b e => match e with FActive b' => b' | _ => b end) t true.

(** ** What a context's window filters mean *)

Section Windows.
Variable search : text -> text -> bool.
(** An empty filter accepts everything; a regular expression has to be found, a class to
    be equal, a title or path to be contained.  A filter with != accepts what the same
    filter with = does not. *)
Definition accepts (whole : bool) (f : filter) (t : text) : Prop :=
  let plain := f_string f = [] \/
               if f_regex f then search (f_string f) t = true
               else if whole then t = f_string f
               else exists a b, t = a ++ f_string f ++ b in
  if f_invert f then ~ plain else plain.
Definition accepts_window (w : window) (c : cctx) : Prop :=
  accepts true (cc_class c) (w_class w) /\ accepts false (cc_title c) (w_title w) /\
  accepts false (cc_path c) (w_path w).

(** ** Which devices are grabbed *)
(** A grab filter selects the devices with this name or id, or those which fit to the
    regular expression; an empty one selects all. *)
Definition selects (f : filter) (t : text) : Prop :=
  f_string f = [] \/ if f_regex f then search (f_string f) t = true else t = f_string f.
(** The last filter which selects a device decides; with != it is not grabbed. *)
Definition decides (l : list (filter * bool)) (name id : text) (default result : bool) : Prop :=
  let picks (f : filter * bool) := selects (fst f) (if snd f then id else name) in
  (exists p f q, l = p ++ f :: q /\ picks f /\ (forall g, In g q -> ~ picks g) /\
     result = negb (f_invert (fst f))) \/
  ((forall f, In f l -> ~ picks f) /\ result = default).

Fixpoint increasing (l : list Z) : Prop :=
  match l with
  | a :: ((b :: _) as r) => (a < b)%Z /\ increasing r
  | _ => True
  end.
(** [l] lists the contexts of the configuration which accept the window. *)
Definition lists_contexts (w : window) (g : config) (l : list Z) : Prop :=
  increasing l /\
  forall i, In i l <->
    (0 <= i)%Z /\ exists c, nth_error (cfg_contexts g) (Z.to_nat i) = Some c /\ accepts_window w c.
(** The contexts which are to be active; none while the client is inactive. *)
Definition right_contexts (t : trace) (g : config) (l : list Z) : Prop :=
  if active_of t then lists_contexts (window_of t) g l else l = [].

(** All contexts ever sent were the right ones for the configuration the server had. *)
Definition contexts_fit (t : trace) : Prop :=
  forall p l q, t = p ++ FSent (SActive l) :: q ->
    exists g, fst (held p) = Some g /\ right_contexts p g l.
End Windows.

(** ** Files *)

(** The file whose configuration is in use: the last one which could be loaded, or the
    first one tried. *)
Definition current_step (n : option text) (e : ceffect) : option text :=
  match e with
  | FLoad name ok => match n with
                     | None => Some name
                     | Some _ => if ok then Some name else n
                     end
  | _ => n
  end.
Definition current (t : trace) : option text := fold_left current_step t None.
Definition tried (t : trace) (name : text) : Prop := exists ok, In (FLoad name ok) t.
(** No file other than the current one, which was tried before, fails to load. *)
Definition switches_work (t : trace) : Prop :=
  forall p name q, t = p ++ FLoad name false :: q -> current p = Some name \/ ~ tried p name.

(** ** Virtual keys *)

(** The state of a virtual key the server reported last over the current connection. *)
Definition reported_step (k : key) (b : bool) (e : ceffect) : bool :=
  match e with
  | FGot (DVirtual k' st) => if k' =? k then st =? 1 else b
  | FLost => false
  | _ => b
  end.
Definition reported (k : key) (t : trace) : bool := fold_left (reported_step k) t false.

(** Every answer which names a virtual key tells the state reported last. *)
Definition answers_right (t : trace) : Prop :=
  forall p s k st q, t = p ++ FAnswer s (AVirtual k st) :: q -> is_virtual_key k = true ->
    k <> last_virtual -> st = if reported k p then Down else Up.

(** The last virtual key was reported or asked for. *)
Definition last_key_used (t : trace) : Prop :=
  (exists st, In (FGot (DVirtual last_virtual st)) t) \/
  (exists s st, In (FAnswer s (AVirtual last_virtual st)) t).

(** ** Connections of keymapperctl *)

Definition conns := list (N * text).
Definition conns_step (l : conns) (e : ceffect) : conns :=
  match e with
  | FAccepted s => if existsb (fun x => fst x =? s) l then l else l ++ [(s, [])]
  | FAsked s (QInstance id) => map (fun x => if fst x =? s then (s, id) else x) l
  | FClosed s => List.filter (fun x => negb (fst x =? s)) l
  | FLost => []
  | _ => l
  end.
(** The open connections and the instance ids they asked for. *)
Definition connections (t : trace) : conns := fold_left conns_step t [].
Definition ids_distinct (l : conns) : Prop :=
  forall s1 s2 id, In (s1, id) l -> In (s2, id) l -> id <> [] -> id <> T "0" -> s1 = s2.

(** ** Injected sequences *)

(** The keys which are pressed after a sequence. *)
Definition pressed_after (k : key) (l : sequence) : bool :=
  fold_left (fun b e => if ek e =? k then match es e with Down => true | Up => false | _ => b end
                        else b) l false.
