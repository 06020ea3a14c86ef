(** What a configuration file says, line by line and independently of how it is stored
    (README.md: Configuration, Context awareness, Abstract commands, Multiple stages). *)
From Coq Require Import String Ascii List NArith ZArith Bool.
From Verif Require Import Base Key Text TextSpec ParseSeq Stage Config ConfigSpec MacroSpec ExprSpec ExprProofs ExpandSpec.
Import ListNotations.
Local Open Scope char_scope.

(** * The document *)

(** What an input is mapped to *)
Inductive aim : Type := Output (o : sequence) | Command (name : text).

(** A block: the conditions in its header, whether it is for this system, whether it
    begins a stage, whether it shares the mappings of the next block, its mappings and its
    outputs for commands. *)
Record block : Type := Block {
  bl_attrs : attrs; bl_sys : bool; bl_stage : bool; bl_shares : bool;
  bl_maps : list (sequence * aim); bl_cmds : list (text * sequence)
}.

(** What else a file sets: the devices to grab, directives for the server, options, the
    included files and the compose key of typed texts *)
Record extras : Type := Extras {
  x_grab : list (filter * bool); x_directives : list text; x_options : list text;
  x_files : list text; x_compose : option (key * bool)
}.
Definition no_extras : extras := Extras [] [] [] [] None.

(** [d_actions]: the terminal commands; [d_open]: the last line was a header; [d_done]:
    the rest of the file is ignored. *)
Record doc : Type := Doc {
  d_blocks : list block; d_actions : list text;
  d_macros : text -> option text; d_logical : list logical_key;
  d_lower : bool; d_unmapped : bool; d_open : bool; d_done : bool; d_more : extras
}.
Definition no_conditions : attrs :=
  (no_filter, no_filter, no_filter, no_filter, no_filter, [], false).

(** The names of commands which inputs were mapped to, and which got an output. *)
Definition mentioned (d : doc) (n : text) : Prop :=
  exists b i, In b (d_blocks d) /\ In (i, Command n) (bl_maps b).
Definition mapped (d : doc) (n : text) : Prop :=
  exists b, In b (d_blocks d) /\ In n (map fst (bl_cmds b)).

Definition set_blocks (x : list block) (d : doc) : doc :=
  Doc x (d_actions d) (d_macros d) (d_logical d) (d_lower d) (d_unmapped d) (d_open d) (d_done d) (d_more d).
Definition set_actions (x : list text) (d : doc) : doc :=
  Doc (d_blocks d) x (d_macros d) (d_logical d) (d_lower d) (d_unmapped d) (d_open d) (d_done d) (d_more d).
Definition set_macros (x : text -> option text) (d : doc) : doc :=
  Doc (d_blocks d) (d_actions d) x (d_logical d) (d_lower d) (d_unmapped d) (d_open d) (d_done d) (d_more d).
Definition set_logical (x : list logical_key) (d : doc) : doc :=
  Doc (d_blocks d) (d_actions d) (d_macros d) x (d_lower d) (d_unmapped d) (d_open d) (d_done d) (d_more d).
Definition set_lower (x : bool) (d : doc) : doc :=
  Doc (d_blocks d) (d_actions d) (d_macros d) (d_logical d) x (d_unmapped d) (d_open d) (d_done d) (d_more d).
Definition set_unmapped (x : bool) (d : doc) : doc :=
  Doc (d_blocks d) (d_actions d) (d_macros d) (d_logical d) (d_lower d) x (d_open d) (d_done d) (d_more d).
Definition set_open (x : bool) (d : doc) : doc :=
  Doc (d_blocks d) (d_actions d) (d_macros d) (d_logical d) (d_lower d) (d_unmapped d) x (d_done d) (d_more d).
Definition set_done (x : bool) (d : doc) : doc :=
  Doc (d_blocks d) (d_actions d) (d_macros d) (d_logical d) (d_lower d) (d_unmapped d) (d_open d) x (d_more d).
Definition set_more (x : extras) (d : doc) : doc :=
  Doc (d_blocks d) (d_actions d) (d_macros d) (d_logical d) (d_lower d) (d_unmapped d) (d_open d) (d_done d) x.
Definition add_grab (f : filter) (by_id : bool) (d : doc) : doc :=
  let x := d_more d in
  set_more (Extras (x_grab x ++ [(f, by_id)]) (x_directives x) (x_options x) (x_files x) (x_compose x)) d.
Definition add_directive (n : text) (d : doc) : doc :=
  let x := d_more d in
  set_more (Extras (x_grab x) (x_directives x ++ [n]) (x_options x) (x_files x) (x_compose x)) d.
Definition add_options (l : list text) (d : doc) : doc :=
  let x := d_more d in
  set_more (Extras (x_grab x) (x_directives x) (x_options x ++ l) (x_files x) (x_compose x)) d.
Definition add_included (n : text) (d : doc) : doc :=
  let x := d_more d in
  set_more (Extras (x_grab x) (x_directives x) (x_options x) (x_files x ++ [n]) (x_compose x)) d.
Definition set_compose (k : key) (alt_gr : bool) (d : doc) : doc :=
  let x := d_more d in
  set_more (Extras (x_grab x) (x_directives x) (x_options x) (x_files x) (Some (k, alt_gr))) d.
Definition define (n v : text) (d : doc) : doc :=
  set_macros (fun x => if text_eqb x n then Some v else d_macros d x) d.
Definition add_map (i : sequence) (a : aim) (b : block) : block :=
  Block (bl_attrs b) (bl_sys b) (bl_stage b) (bl_shares b) (bl_maps b ++ [(i, a)]) (bl_cmds b).
Definition add_cmd (n : text) (o : sequence) (b : block) : block :=
  Block (bl_attrs b) (bl_sys b) (bl_stage b) (bl_shares b) (bl_maps b) (bl_cmds b ++ [(n, o)]).
Definition share (b : block) : block :=
  Block (bl_attrs b) (bl_sys b) (bl_stage b) true (bl_maps b) (bl_cmds b).

(** * Headers *)

Inductive attribute : Type :=
| AClass (f : filter) | ATitle (f : filter) | APath (f : filter)
| ADevice (f : filter) | ADeviceId (f : filter)
| ASystem (matches : bool) | AModifier (mods : sequence) (inverted : bool).
Definition with_attribute (x : attrs * bool) (a : attribute) : attrs * bool :=
  let '(c, t, p, d, i, mods, inv, sys) := x in
  match a with
  | AClass f => (f, t, p, d, i, mods, inv, sys)
  | ATitle f => (c, f, p, d, i, mods, inv, sys)
  | APath f => (c, t, f, d, i, mods, inv, sys)
  | ADevice f => (c, t, p, f, i, mods, inv, sys)
  | ADeviceId f => (c, t, p, d, f, mods, inv, sys)
  | ASystem b => (c, t, p, d, i, mods, inv, b)
  | AModifier l b => (c, t, p, d, i, l, b, sys)
  end.

(** Each key of a list of modifiers counts once. *)
Fixpoint firsts (seen : list key) (l : sequence) : sequence :=
  match l with
  | [] => []
  | e :: r => if existsb (N.eqb (ek e)) seen then firsts seen r else e :: firsts (ek e :: seen) r
  end.

Section Lines.
(** What typing a text means, which regular expressions are accepted, the lines of other
    files, the system *)
Variable typer : option (key * bool) -> text -> list stroke.
Variable regex_ok : text -> bool -> bool.
Variable read_file : text -> option (list text).
Variable current_system : text.

Definition flag_text (b : bool) : text := if b then ["i"] else [].
Definition slashed (s x : text) (b : bool) : Prop := s = "/" :: x ++ "/" :: flag_text b.
(** The filter for a text: a regular expression or the text itself *)
Inductive filter_for (inv : bool) : text -> filter -> Prop :=
| filter_regex : forall s x b, slashed s x b -> regex_ok x b = true -> filter_for inv s (Filter s true inv)
| filter_text : forall s, s <> [] -> (forall x b, ~ slashed s x b) -> s <> ["/"; "i"] ->
    filter_for inv s (Filter s false inv).

(** Values: the text as written and its value *)
Inductive value : text -> text -> Prop :=
| value_string : forall q s, quotes q -> ~ In q s -> value (q :: s ++ [q]) s
| value_word : forall w, word w -> value w w.
Inductive filter_value (d : doc) : text -> text -> Prop :=
| filter_value_text : forall v s, value v s -> (v = s -> d_macros d s = None) -> filter_value d v s
| filter_value_regex : forall x b, pattern x -> filter_value d ("/" :: x ++ "/" :: flag_text b) ("/" :: x ++ "/" :: flag_text b).

Definition key_of (d : doc) (n : text) (k : key) : Prop :=
  word n /\ cfg_key_by_name (d_logical d) n = k /\ k <> k_none.

Inductive modifiers (d : doc) : text -> sequence -> Prop :=
| modifiers_nil : forall s, spaces s -> modifiers d s []
| modifiers_cons : forall s (neg : bool) n k r l, spaces s -> key_of d n k -> k <> k_ContextActive -> apart r ->
    modifiers d r l ->
    modifiers d (s ++ (if neg then ["!"] else []) ++ n ++ r) (Ev k (if neg then Not else Down) 0 :: l).

(** name, value and meaning of an attribute *)
Inductive attribute_says (d : doc) (inv : bool) : text -> text -> attribute -> Prop :=
| a_class : forall v s f, filter_value d v s -> filter_for inv s f -> attribute_says d inv (T "class") v (AClass f)
| a_title : forall v s f, filter_value d v s -> filter_for inv s f -> attribute_says d inv (T "title") v (ATitle f)
| a_path : forall v s f, filter_value d v s -> filter_for inv s f -> attribute_says d inv (T "path") v (APath f)
| a_device : forall v s f, filter_value d v s -> filter_for inv s f -> attribute_says d inv (T "device") v (ADevice f)
| a_device_id : forall n v s f, n = T "device-id" \/ n = T "device_id" -> filter_value d v s -> filter_for inv s f ->
    attribute_says d inv n v (ADeviceId f)
| a_system : forall v s b, value v s -> b = equal_case_insensitive s current_system -> attribute_says d inv (T "system") v (ASystem (xorb b inv))
| a_modifier : forall v s t l, value v s -> expands (d_macros d) 30 s t -> modifiers d t l ->
    attribute_says d inv (T "modifier") v (AModifier (firsts [] l) inv).

(** What stands between a value and the next attribute *)
Definition separator (t : text) : Prop :=
  exists s s', spaces s /\ spaces s' /\ (t = s ++ s' \/ t = s ++ "," :: s').
Inductive attributes (d : doc) : text -> list attribute -> Prop :=
| attributes_last : forall n s (inv : bool) s' v s'' a, spaces s -> spaces s' -> spaces s'' ->
    attribute_says d inv n v a ->
    attributes d (n ++ s ++ (if inv then ["!"] else []) ++ "=" :: s' ++ v ++ s'' ++ ["]"]) [a]
| attributes_more : forall n s (inv : bool) s' v sep r a l, spaces s -> spaces s' -> separator sep ->
    attribute_says d inv n v a -> apart (sep ++ r) -> attributes d r l ->
    attributes d (n ++ s ++ (if inv then ["!"] else []) ++ "=" :: s' ++ v ++ sep ++ r) (a :: l).

(** * Mappings *)

(** The events of an input and an output (see ExprSpec.v) *)
Definition reads_input (d : doc) (t : text) (i : sequence) : Prop :=
  exists skipping e s x, spaces s /\ t = s ++ front_text skipping x /\
    written (cfg_key_by_name (d_logical d)) e x /\
    let l := ExprSpec.meaning true (typing true (typer (x_compose (d_more d)))) (fun _ => k_none) false 0 e (start skipping) in
    fine true (typing true (typer (x_compose (d_more d)))) (fun _ => k_none) skipping [] [] false 0 e (start skipping) /\
    ExprSpec.presses l /\ no_context_active l /\
    (skipping = true -> Forall (fun e => is_virtual_key (ek e) = false) l) /\
    i = if skipping then without_ending (is_state UpAsync) l else l.
Definition reads_output (d : doc) (t : text) (o : sequence) (cmds : list text) : Prop :=
  exists e, written (cfg_key_by_name (d_logical d)) e t /\
    let command := fun n => action_key (length (d_actions d) + n) in
    let l := ExprSpec.meaning false (typing false (typer (x_compose (d_more d)))) command false 0 e [] in
    fine false (typing false (typer (x_compose (d_more d)))) command false [] [] false 0 e [] /\
    no_context_active l /\ held_output (holds (types_modifiers (typer (x_compose (d_more d)))) e) l o /\
    cmds = commands_of e.

(** The name of a command: not one of a key *)
Definition command_name (d : doc) (n : text) : Prop :=
  word n /\ cfg_key_by_name (d_logical d) n = k_none /\ (d_lower d = true -> starts_with_lower_case n = true).
Definition only (t n : text) : Prop :=
  exists s s' c, spaces s /\ spaces s' /\ comment c /\ t = s ++ n ++ s' ++ c.

(** The text in front of the first `>>`, and what of it is the input *)
Definition in_front (i : text) : Prop :=
  (forall a b, i ++ [">"; ">"] = a ++ ">" :: ">" :: b -> b = []) /\
  (forall n s c r, i = n ++ s ++ c :: r -> Forall (fun c => is_ident_char c = true) n -> spaces s ->
     is_comment_char c = false).
Definition input_part (i x : text) : Prop :=
  (word x /\ exists s, spaces s /\ i = x ++ s) \/
  (x = i /\ forall n s, i = n ++ s -> word n -> ~ spaces s).

Inductive mapping_says (d : doc) : text -> doc -> Prop :=
| says_mapping : forall bs b i x o inp out cmds, d_blocks d = bs ++ [b] -> in_front i -> input_part i x ->
    (word x -> ~ mentioned d x /\ starts_with_lower_case x = false) ->
    reads_input d x inp -> (forall n, command_name d n -> ~ only o n) -> reads_output d o out cmds ->
    mapping_says d (i ++ ">" :: ">" :: o)
      (set_actions (d_actions d ++ cmds) (set_blocks (bs ++ [add_map inp (Output out) b]) d))
| says_command : forall bs b i x o n inp, d_blocks d = bs ++ [b] -> in_front i -> input_part i x ->
    (word x -> ~ mentioned d x /\ starts_with_lower_case x = false) ->
    reads_input d x inp -> command_name d n -> only o n ->
    mapping_says d (i ++ ">" :: ">" :: o) (set_blocks (bs ++ [add_map inp (Command n) b]) d)
| says_output : forall bs b n s o out cmds, d_blocks d = bs ++ [b] -> word n -> spaces s -> mentioned d n ->
    ~ In n (map fst (bl_cmds b)) -> reads_output d o out cmds ->
    mapping_says d (n ++ s ++ ">" :: ">" :: o)
      (set_actions (d_actions d ++ cmds) (set_blocks (bs ++ [add_cmd n out b]) d))
| says_unused : forall n s o out cmds, word n -> spaces s -> ~ mentioned d n ->
    starts_with_lower_case n = true -> d_unmapped d = true -> reads_output d o out cmds ->
    mapping_says d (n ++ s ++ ">" :: ">" :: o) (set_actions (d_actions d ++ cmds) d).

(** A macro can expand to several mappings. *)
Definition line_end : ascii := ascii_of_N 10.
Inductive mappings_say : doc -> text -> doc -> Prop :=
| say_none : forall d, mappings_say d [] d
| say_last : forall d t d', t <> [] -> outside (fun c => c = line_end) t -> mapping_says d t d' -> mappings_say d t d'
| say_more : forall d t r d1 d2, outside (fun c => c = line_end) t -> mapping_says d (t ++ [line_end]) d1 ->
    mappings_say d1 r d2 -> mappings_say d (t ++ line_end :: r) d2.

(** * Lines *)

(** A line which does not define something *)
Definition no_definition (t : text) : Prop :=
  forall s n s' r, t = s ++ n ++ s' ++ "=" :: r -> spaces s -> Forall (fun c => is_ident_char c = true) n ->
    spaces s' -> False.

(** The keys of `A | B | C`, each of them the name of a key or a macro for it; the text
    behind the first name *)
Inductive either (d : doc) : text -> list key -> Prop :=
| either_end : forall s c, spaces s -> comment c -> either d (s ++ c) []
| either_more : forall s s' i n k r l, spaces s -> spaces s' -> word i -> apart r ->
    expands (d_macros d) 30 i n -> key_of d n k -> either d r l ->
    either d (s ++ "|" :: s' ++ i ++ r) (k :: l).
(** The logical keys for it: two keys at a time *)
Fixpoint chain (name : text) (left : key) (l : list key) (ks : list logical_key) : list logical_key :=
  match l with
  | [] => ks
  | k :: r =>
      let both := ((first_logical + N.of_nat (length ks)) mod 65536)%N in
      chain name both r (ks ++ [LK (match r with [] => name | _ => T "$" end) both left k])
  end.

Definition last_block (d : doc) (b : block) : Prop := exists bs, d_blocks d = bs ++ [b].

(** `@name`, `@name true` or `@name false` behind [s] *)
Inductive option_says : text -> bool -> text -> text -> Prop :=
| option_on : forall n t s s', spaces s' -> t = s ++ "@" :: n ++ s' -> option_says n true t s
| option_value : forall n (v : bool) t s s1 s2, spaces s1 -> s1 <> [] -> spaces s2 ->
    t = s ++ "@" :: n ++ s1 ++ (if v then T "true" else T "false") ++ s2 -> option_says n v t s.

(** `grab-device`, `skip-device`, `grab-device-id`, `skip-device-id` *)
Definition device_directive (skips by_id : bool) : text :=
  (if skips then T "skip-device" else T "grab-device") ++ (if by_id then T "-id" else []).
(** The names of options, each with a space in between *)
Inductive options_say : text -> list text -> Prop :=
| options_none : options_say [] []
| options_last : forall n, In n (map T ["update"; "no-update"; "verbose"; "no-tray"; "no-notify"]%string) -> options_say n [n]
| options_more : forall n r l, In n (map T ["update"; "no-update"; "verbose"; "no-tray"; "no-notify"]%string) ->
    options_say r l -> options_say (n ++ " " :: r) (n :: l).
(** The lines of a file without the byte order mark *)
Inductive unmarked : list text -> list text -> Prop :=
| unmarked_none : unmarked [] []
| unmarked_mark : forall l r, unmarked ((bom ++ l) :: r) (l :: r)
| unmarked_other : forall l r, skip bom l = None -> unmarked (l :: r) (l :: r).

(** [included]: what the lines of another file say *)
Inductive line_says (included : doc -> list text -> doc -> Prop) (d : doc) : text -> doc -> Prop :=
(** mappings, or nothing *)
| says_mappings : forall l t s x d', no_definition l -> expands (d_macros d) 30 l t ->
    t = s ++ x -> spaces s -> match x with c :: _ => is_space c = false /\ is_comment_char c = false /\ c <> "@" /\ c <> "[" | [] => True end ->
    mappings_say (set_open false d) x d' -> line_says included d l d'
(** `[default]`, `[stage]` and other headers *)
| says_stage : forall l t s s1 s2 s3, no_definition l -> expands (d_macros d) 30 l t ->
    spaces s -> spaces s1 -> spaces s2 -> spaces s3 ->
    t = s ++ "[" :: s1 ++ T "stage" ++ s2 ++ "]" :: s3 ->
    line_says included d l (set_open false (set_blocks (d_blocks d ++ [Block no_conditions true true false [] []]) d))
| says_default : forall l t s s1 s2 s3 bs b, no_definition l -> expands (d_macros d) 30 l t ->
    spaces s -> spaces s1 -> spaces s2 -> spaces s3 -> d_blocks d = bs ++ [b] ->
    t = s ++ "[" :: s1 ++ T "default" ++ s2 ++ "]" :: s3 ->
    line_says included d l (set_open true (set_blocks
      (bs ++ [if d_open d then share b else b; Block no_conditions true false false [] []]) d))
| says_header : forall l t s s1 x s3 bs b as_ conds sys, no_definition l -> expands (d_macros d) 30 l t ->
    spaces s -> spaces s1 -> spaces s3 -> attributes d x as_ -> d_blocks d = bs ++ [b] ->
    fold_left with_attribute as_ (no_conditions, true) = (conds, sys) ->
    t = s ++ "[" :: s1 ++ x ++ s3 ->
    line_says included d l (set_open true (set_blocks
      (bs ++ [if d_open d then share b else b; Block conds sys false false [] []]) d))
(** `Name = A | B` *)
| says_logical : forall s w s1 s2 i x r left l ks, spaces s -> spaces s1 -> spaces s2 ->
    word w -> cfg_key_by_name (d_logical d) w = k_none -> word i -> apart r ->
    expands (d_macros d) 30 i x -> key_of d x left -> l <> [] -> either d r l ->
    chain w left l (d_logical d) = ks ->
    line_says included d (s ++ w ++ s1 ++ "=" :: s2 ++ i ++ r) (set_logical ks d)
(** `name = value`; in a block for another system it does not replace a macro. *)
| says_macro : forall s w s1 s2 x v b, spaces s -> spaces s1 -> spaces s2 ->
    word w -> match x with c :: _ => is_space c = false | [] => True end ->
    (cfg_key_by_name (d_logical d) w <> k_none \/
     (forall i r s', x = i ++ s' ++ "|" :: r -> spaces s' -> Forall (fun c => is_ident_char c = true) i -> False)) ->
    (forall i r, x = i ++ r -> word i -> apart r -> exists y, expands (d_macros d) 30 i y) ->
    parts (d_macros d) true 30 x v -> last_block d b ->
    line_says included d (s ++ w ++ s1 ++ "=" :: s2 ++ x)
      (if bl_sys b then define w v d else match d_macros d w with None => define w v d | Some _ => d end)
(** directives *)
| says_allow : forall l t s b v, no_definition l -> expands (d_macros d) 30 l t -> spaces s ->
    option_says (T "allow-unmapped-commands") v t s -> last_block d b ->
    line_says included d l (if bl_sys b then set_unmapped v d else d)
| says_enforce : forall l t s b v, no_definition l -> expands (d_macros d) 30 l t -> spaces s ->
    option_says (T "enforce-lowercase-commands") v t s -> last_block d b ->
    line_says included d l (if bl_sys b then set_lower v d else d)
| says_done : forall l t s s' b, no_definition l -> expands (d_macros d) 30 l t -> spaces s -> spaces s' ->
    t = s ++ "@" :: T "done" ++ s' -> last_block d b ->
    line_says included d l (if bl_sys b then set_done true d else d)
| says_device : forall l t s s1 s2 b skips by_id v x f, no_definition l -> expands (d_macros d) 30 l t ->
    spaces s -> spaces s1 -> spaces s2 -> filter_value d v x -> filter_for skips x f -> apart (s1 ++ v) ->
    t = s ++ "@" :: device_directive skips by_id ++ s1 ++ v ++ s2 -> last_block d b ->
    line_says included d l (if bl_sys b then add_grab f by_id d else d)
| says_macos : forall l t s b m v, no_definition l -> expands (d_macros d) 30 l t -> spaces s ->
    m = T "macos-iso-keyboard" \/ m = T "macos-toggle-fn" -> option_says m v t s -> last_block d b ->
    line_says included d l (if bl_sys b && v then add_directive m d else d)
| says_options : forall l t s s1 x os b, no_definition l -> expands (d_macros d) 30 l t -> spaces s -> spaces s1 ->
    t = s ++ "@" :: T "options" ++ s1 ++ x -> apart (s1 ++ x) -> options_say x os -> last_block d b ->
    line_says included d l (if bl_sys b then add_options os d else d)
| says_compose : forall l t s x k (alt_gr : bool) b, no_definition l -> expands (d_macros d) 30 l t -> spaces s ->
    t = s ++ "@" :: T "compose-key" ++ x -> apart x -> (alt_gr = false -> k <> AltRight) ->
    reads_input d x (if alt_gr then [Ev AltRight Down 0; Ev k Down 0; Ev k UpAsync 0; Ev AltRight UpAsync 0]
                     else [Ev k Down 0; Ev k UpAsync 0]) ->
    last_block d b ->
    line_says included d l (if bl_sys b then set_compose k alt_gr d else d)
(** the lines of another file *)
| says_include : forall l t s s1 s2 q x b ls ls' d', no_definition l -> expands (d_macros d) 30 l t ->
    spaces s -> spaces s1 -> spaces s2 -> quotes q -> ~ In q x ->
    t = s ++ "@" :: T "include" ++ s1 ++ q :: x ++ q :: s2 -> last_block d b -> bl_sys b = true ->
    read_file x = Some ls -> unmarked ls ls' -> included (add_included x d) ls' d' ->
    line_says included d l d'
| says_no_include : forall l t s x b, no_definition l -> expands (d_macros d) 30 l t -> spaces s ->
    t = s ++ "@" :: T "include" ++ x -> last_block d b -> bl_sys b = false ->
    line_says included d l d.

(** * Files *)

(** A line ending with a backslash is continued by the next one; [p] is what was read of
    the current line. *)
Definition continued (l x : text) : Prop := exists s, spaces s /\ l = x ++ "\" :: s.
Inductive lines_say (included : doc -> list text -> doc -> Prop) : doc -> text -> list text -> doc -> Prop :=
| file_end : forall d, lines_say included d [] [] d
| file_done : forall d ls, d_done d = true -> lines_say included d [] ls d
| file_line : forall d p l r d1 d2, d_done d = false -> (forall x, ~ continued l x) -> line_says included d (p ++ l) d1 ->
    lines_say included d1 [] r d2 -> lines_say included d p (l :: r) d2
| file_continued : forall d p l x r d', d_done d = false -> continued l x -> lines_say included d (p ++ x) r d' ->
    lines_say included d p (l :: r) d'.
(** Included files can include others, up to [n] deep. *)
Fixpoint file_says (n : nat) (d : doc) (ls : list text) (d' : doc) : Prop :=
  lines_say (match n with O => fun _ _ _ => False | S m => file_says m end) d [] ls d'.

(** Lines which are rejected: a second output for a command in a block, an output for a
    command which nothing is mapped to, and neither a mapping nor anything else *)
Inductive wrong (d : doc) : text -> Prop :=
| wrong_again : forall b n s o out cmds, last_block d b -> word n -> spaces s -> mentioned d n ->
    In n (map fst (bl_cmds b)) -> reads_output d o out cmds -> wrong d (n ++ s ++ ">" :: ">" :: o)
| wrong_unused : forall n s o, word n -> spaces s -> ~ mentioned d n -> starts_with_lower_case n = true ->
    d_unmapped d = false -> wrong d (n ++ s ++ ">" :: ">" :: o)
| wrong_text : forall t, t <> [] -> (forall a b, t <> a ++ ">" :: ">" :: b) -> wrong d t.
Definition line_wrong (d : doc) (l : text) : Prop :=
  no_definition l /\ exists t s x, expands (d_macros d) 30 l t /\ spaces s /\ t = s ++ x /\
    match x with c :: _ => is_space c = false /\ is_comment_char c = false /\ c <> "@" /\ c <> "[" | [] => True end /\
    outside (fun c => c = line_end) x /\ wrong (set_open false d) x.
(** Unknown directives, and files which cannot be read *)
Inductive wrong_directive : text -> Prop :=
| wrong_name : forall w r, Forall (fun c => is_ident_char c = true) w -> apart r ->
    ~ In w (map T ["include"; "grab-device"; "skip-device"; "grab-device-id"; "skip-device-id"; "enforce-lowercase-commands";
      "allow-unmapped-commands"; "forward-modifiers"; "done"; "compose-key"; "macos-iso-keyboard"; "macos-toggle-fn"; "options"]%string) ->
    wrong_directive (w ++ r)
| wrong_file : forall s q x r, spaces s -> quotes q -> ~ In q x -> read_file x = None ->
    wrong_directive (T "include" ++ s ++ q :: x ++ q :: r).
Definition directive_wrong (d : doc) (l : text) : Prop :=
  no_definition l /\ exists t s x b, expands (d_macros d) 30 l t /\ spaces s /\ t = s ++ "@" :: x /\
    last_block d b /\ bl_sys b = true /\ wrong_directive x.

(** The beginning: no mappings, and the four logical modifiers *)
Definition first_doc : doc :=
  Doc [Block no_conditions true true false [] []] [] (fun _ => None)
      [LK (T "Shift") first_logical ShiftLeft ShiftRight;
       LK (T "Control") (first_logical + 1) ControlLeft ControlRight;
       LK (T "Alt") (first_logical + 2) AltLeft AltRight;
       LK (T "Meta") (first_logical + 3) MetaLeft MetaRight] false false false false no_extras.
(** The lines of a text *)
Fixpoint joined (ls : list text) : text :=
  match ls with [] => [] | [l] => l | l :: r => l ++ line_end :: joined r end.
Definition lines_of (t : text) (ls : list text) : Prop :=
  exists ls', t = joined ls' /\ unmarked ls' ls /\ ls' <> [] /\ Forall (fun l => ~ In line_end l) ls.
(** Each command which an input is mapped to needs an output. *)
Definition complete (d : doc) : Prop := d_unmapped d = true \/ forall n, mentioned d n -> mapped d n.
End Lines.

(** * How it is stored *)

(** The active mappings of the stages (compare ConfigSpec.v), with numbers for the commands *)
Section Stored.
Variable number_of : text -> Z.
Definition stored_aim (a : aim) : target :=
  match a with Output o => TOut o | Command n => TCmd (number_of n) end.
Definition block_maps (b : block) : maps :=
  (map (fun m => (fst m, stored_aim (snd m))) (bl_maps b),
   map (fun c => Cmd (snd c) (number_of (fst c))) (bl_cmds b)).
Fixpoint stages (l : list block) : list (list block) :=
  match l with
  | [] => [[]]
  | x :: r =>
      match r with
      | [] => [[x]]
      | y :: _ => if bl_stage y then [x] :: stages r
                  else match stages r with s :: ss => (x :: s) :: ss | [] => [[x]] end
      end
  end.
Fixpoint active_blocks (met : attrs -> bool) (on : bool) (l : list block) : list maps :=
  match l with
  | [] => []
  | b :: r =>
      let on := on || (bl_sys b && met (bl_attrs b)) in
      if bl_shares b then active_blocks met on r
      else (if on && has_maps (block_maps b) then [block_maps b] else []) ++ active_blocks met false r
  end.
Definition doc_meaning (met : attrs -> bool) (d : doc) : list (list maps) :=
  map (active_blocks met false) (stages (d_blocks d)).
End Stored.
