(** Replay of src/test/test3_Stage.cpp on the model (generated from that file).
    These are tests of the model's faithfulness, not proofs. *)
From Coq Require Import String List NArith ZArith.
From Verif Require Import Replay.
Import ListNotations.
Local Open Scope string_scope.

(** test3_Stage.cpp: Simple *)
Example stage_test_01 : replay "
A >> B
" true [
  OIn "+A -A" "+B -B";
  OIn "+B -B" "+B -B";
  OIn "+ShiftLeft" "+ShiftLeft";
  OIn "+A" "+B";
  OIn "+A" "+B";
  OIn "+A" "+B";
  OIn "-A" "-B";
  OIn "-ShiftLeft" "-ShiftLeft"] = Pass.
Proof. vm_compute. reflexivity. Qed.

(** test3_Stage.cpp: Layout *)
Example stage_test_02 : replay "
S >> R
D >> S
F >> T
" true [
  OIn "+A" "+A";
  OIn "+S" "+R";
  OIn "+D" "+S";
  OIn "+F" "+T";
  OIn "-A" "-A";
  OIn "-S" "-R";
  OIn "-D" "-S";
  OIn "-F" "-T"] = Pass.
Proof. vm_compute. reflexivity. Qed.

(** test3_Stage.cpp: Layout / Boss Key *)
Example stage_test_03 : replay "
Boss    = ScrollLock
!Boss S >> R
!Boss D >> S
!Boss F >> T
" true [
  OIn "+A" "+A";
  OIn "+S" "+R";
  OIn "+D" "+S";
  OIn "+F" "+T";
  OIn "-A" "-A";
  OIn "-S" "-R";
  OIn "-D" "-S";
  OIn "-F" "-T";
  OIn "+ScrollLock" "+ScrollLock";
  OIn "+A" "+A";
  OIn "+S" "+S";
  OIn "+D" "+D";
  OIn "+F" "+F";
  OIn "-A" "-A";
  OIn "-S" "-S";
  OIn "-D" "-D";
  OIn "-F" "-F";
  OIn "-ScrollLock" "-ScrollLock"] = Pass.
Proof. vm_compute. reflexivity. Qed.

(** test3_Stage.cpp: Sequence *)
Example stage_test_04 : replay "
M R >> A
M S >> B
R R >> C
R S >> D
" true [
  OIn "+M" "";
  OSeq "+M";
  OIn "-M" "";
  OSeq "+M -M";
  OIn "+X" "+M -M +X";
  OSeq "#X";
  OIn "-X" "-X";
  OClear true;
  OIn "+M" "";
  OIn "-M" "";
  OSeq "+M -M";
  OIn "+M" "+M -M";
  OSeq "+M";
  OIn "-M" "";
  OSeq "+M -M";
  OIn "+R" "+A";
  OIn "-R" "-A";
  OClear true;
  OIn "+M" "";
  OIn "+S" "+B";
  OIn "-S" "-B";
  OIn "-M" "";
  OClear true;
  OIn "+S" "+S";
  OIn "-S" "-S";
  OIn "+R" "";
  OSeq "+R";
  OIn "-R" "";
  OSeq "+R -R";
  OIn "+R" "+C";
  OSeq "#R";
  OIn "-R" "-C";
  OClear true;
  OIn "+X" "+X";
  OIn "+M" "";
  OIn "-M" "";
  OIn "+S" "+B";
  OIn "-S" "-B";
  OIn "-X" "-X";
  OClear true;
  OIn "+X" "+X";
  OIn "+M" "";
  OIn "-X" "+M -X";
  OIn "-M" "-M";
  OIn "+S" "+S";
  OIn "-S" "-S";
  OClear true] = Pass.
Proof. vm_compute. reflexivity. Qed.

(** test3_Stage.cpp: Combo *)
Example stage_test_05 : replay "
Control >> Control
Control{K} X   >> 1
Control{K} Any >>
" true [
  OIn "+ControlLeft" "+ControlLeft";
  OIn "+K" "";
  OIn "-K" "";
  OIn "-ControlLeft" "-ControlLeft";
  OIn "+X" "+1";
  OIn "-X" "-1";
  OIn "+K" "+K";
  OIn "-K" "-K";
  OIn "+X" "+X";
  OIn "-X" "-X";
  OIn "+ControlLeft" "+ControlLeft";
  OIn "+K -K" "";
  OIn "-ControlLeft" "-ControlLeft";
  OIn "+Y -Y" ""] = Pass.
Proof. vm_compute. reflexivity. Qed.

(** test3_Stage.cpp: Filter *)
Example stage_test_06 : replay "
Shift >> Shift
A >> A
Any >>
" true [
  OIn "+A" "+A";
  OSeq "#A";
  OIn "-A" "-A";
  OClear true;
  OIn "+B -B" "";
  OClear true;
  OIn "+C -C" "";
  OClear true;
  OIn "+ShiftLeft +D -D -ShiftLeft" "+ShiftLeft -ShiftLeft";
  OClear true] = Pass.
Proof. vm_compute. reflexivity. Qed.

(** test3_Stage.cpp: Top-Down Matching *)
Example stage_test_07 : replay "
A   >> 1
A B >> 2
B   >> 3
" true [
  OIn "+A" "+1";
  OIn "-A" "-1";
  OClear true;
  OIn "+B" "+3";
  OIn "-B" "-3";
  OClear true;
  OIn "+A" "+1";
  OIn "+B" "+2";
  OIn "-B" "-2";
  OIn "-A" "-1"] = Pass.
Proof. vm_compute. reflexivity. Qed.

(** test3_Stage.cpp: Input is completly replaced *)
Example stage_test_08 : replay "
A    >> 1
B{C} >> 2
" true [
  OIn "+A" "+1";
  OIn "-A" "-1";
  OIn "+B" "";
  OIn "-B" "+B -B";
  OIn "+B" "";
  OIn "+C" "+2";
  OIn "-C" "-2";
  OIn "-B" ""] = Pass.
Proof. vm_compute. reflexivity. Qed.

(** test3_Stage.cpp: Cursor *)
Example stage_test_09 : replay "
Ext      = CapsLock
Ext      >>
Ext{I}   >> ArrowUp
Ext{K}   >> ArrowDown
Ext{J}   >> ArrowLeft
Ext{L}   >> ArrowRight
Ext{D}   >> Shift
Ext{Any} >>
" true [
  OIn "+I" "+I";
  OSeq "#I";
  OIn "-I" "-I";
  OClear true;
  OIn "+CapsLock" "";
  OSeq "#CapsLock";
  OIn "-CapsLock" "";
  OClear true;
  OIn "+CapsLock" "";
  OIn "+X" "";
  OIn "-X" "";
  OIn "-CapsLock" "";
  OClear true;
  OIn "+CapsLock" "";
  OSeq "#CapsLock";
  OIn "+I" "+ArrowUp";
  OSeq "#CapsLock #I";
  OIn "+I" "+ArrowUp";
  OSeq "#CapsLock #I";
  OIn "-I" "-ArrowUp";
  OSeq "#CapsLock";
  OIn "+D" "+ShiftLeft";
  OSeq "#CapsLock #D";
  OIn "+I" "+ArrowUp";
  OSeq "#CapsLock #D #I";
  OIn "+I" "+ArrowUp";
  OSeq "#CapsLock #D #I";
  OIn "-I" "-ArrowUp";
  OSeq "#CapsLock #D";
  OIn "-D" "-ShiftLeft";
  OSeq "#CapsLock";
  OIn "-CapsLock" "";
  OClear true] = Pass.
Proof. vm_compute. reflexivity. Qed.

(** test3_Stage.cpp: Any matches any key *)
Example stage_test_10 : replay "
A{B} >> 1
Any  >>
" true [
  OIn "+A" "";
  OIn "-A" "";
  OIn "+B" "";
  OIn "-B" "";
  OIn "+A" "";
  OIn "+B" "+1";
  OIn "-B" "-1";
  OIn "-A" "";
  OIn "+ButtonLeft" "+ButtonLeft";
  OIn "-ButtonLeft" "-ButtonLeft"] = Pass.
Proof. vm_compute. reflexivity. Qed.

(** test3_Stage.cpp: Not in input *)
Example stage_test_11 : replay "
!C A >> X
B !B >> Y
D !D E >> Z
" true [
  OIn "+A" "+X";
  OIn "+A" "+X";
  OIn "-A" "-X";
  OClear true;
  OIn "+C" "+C";
  OIn "+A" "+A";
  OIn "-A" "-A";
  OIn "-C" "-C";
  OClear true;
  OIn "+B" "";
  OIn "+B" "";
  OIn "-B" "+Y -Y";
  OClear true;
  OIn "+D" "";
  OIn "-D" "";
  OIn "+E" "+Z";
  OIn "-E" "-Z";
  OClear true;
  OIn "+D" "";
  OIn "+E" "+D +E";
  OIn "-E" "-E";
  OIn "-D" "-D";
  OClear true;
  OIn "+D" "";
  OIn "+B" "+D";
  OIn "+B" "";
  OIn "-B" "+Y -Y";
  OIn "-D" "-D";
  OClear true] = Pass.
Proof. vm_compute. reflexivity. Qed.

(** test3_Stage.cpp: Not in input undone *)
Example stage_test_12 : replay "
Shift >> Shift
!Shift A Shift{B} >> X
" true [
  OIn "+ShiftLeft" "+ShiftLeft";
  OIn "+A" "+A";
  OIn "-A" "-A";
  OIn "+B" "+B";
  OIn "-B" "-B";
  OIn "-ShiftLeft" "-ShiftLeft";
  OClear true;
  OIn "+A" "";
  OIn "-A" "";
  OIn "+ShiftLeft" "";
  OIn "+B" "+X";
  OIn "-B" "-X";
  OIn "-ShiftLeft" "";
  OClear true] = Pass.
Proof. vm_compute. reflexivity. Qed.

(** test3_Stage.cpp: Not in input with modifier group *)
Example stage_test_13 : replay "
A{B !B} >> X
C{D} !C >> Y
" true [
  OIn "+A" "";
  OIn "+B" "";
  OIn "-B" "+X -X";
  OIn "-A" "";
  OClear true;
  OIn "+A" "";
  OIn "+B" "";
  OIn "-A" "+A +B -A";
  OIn "-B" "-B";
  OClear true;
  OIn "+C" "";
  OIn "+D" "";
  OIn "-C" "+Y -Y";
  OIn "-D" "";
  OClear true;
  OIn "+C" "";
  OIn "+D" "";
  OIn "-D" "";
  OIn "-C" "+Y -Y";
  OClear true;
  OIn "+C" "";
  OIn "+D" "";
  OIn "+E" "+C +D +E";
  OIn "-C" "-C";
  OIn "-E" "-E";
  OIn "-D" "-D";
  OClear true] = Pass.
Proof. vm_compute. reflexivity. Qed.

(** test3_Stage.cpp: Not in output *)
Example stage_test_14 : replay "
Shift    >> Shift
Shift{X} >> !Shift 1
" true [
  OIn "+ShiftLeft" "+ShiftLeft";
  OSeq "#ShiftLeft";
  OIn "+X" "-ShiftLeft +1";
  OSeq "#ShiftLeft #X";
  OIn "+X" "+1";
  OIn "+X" "+1";
  OIn "-X" "-1";
  OIn "-ShiftLeft" "";
  OClear true;
  OIn "+ShiftLeft" "+ShiftLeft";
  OIn "+X" "-ShiftLeft +1";
  OIn "-X" "-1";
  OIn "+X" "+1";
  OIn "-X" "-1";
  OIn "+Y" "+ShiftLeft +Y";
  OIn "-Y" "-Y";
  OIn "-ShiftLeft" "-ShiftLeft"] = Pass.
Proof. vm_compute. reflexivity. Qed.

(** test3_Stage.cpp: Not in output #2 *)
Example stage_test_15 : replay "
A >> S !S
B >> R{T !T}
" true [
  OIn "+A" "+S -S";
  OIn "-A" "";
  OClear true;
  OIn "+B" "+R +T -T -R";
  OIn "-B" "";
  OClear true] = Pass.
Proof. vm_compute. reflexivity. Qed.

(** test3_Stage.cpp: Not Any in output *)
Example stage_test_16 : replay "
Shift    >> Shift
Shift{X} >> !Any 1
" true [
  OIn "+ShiftLeft" "+ShiftLeft";
  OSeq "#ShiftLeft";
  OIn "+X" "-ShiftLeft +1";
  OSeq "#ShiftLeft #X";
  OIn "+X" "-1 +1";
  OIn "+X" "-1 +1";
  OIn "-X" "-1";
  OIn "-ShiftLeft" "";
  OClear true;
  OIn "+ShiftLeft" "+ShiftLeft";
  OIn "+X" "-ShiftLeft +1";
  OIn "-X" "-1";
  OIn "+X" "+1";
  OIn "-X" "-1";
  OIn "+Y" "+ShiftLeft +Y";
  OIn "-Y" "-Y";
  OIn "-ShiftLeft" "-ShiftLeft"] = Pass.
Proof. vm_compute. reflexivity. Qed.

(** test3_Stage.cpp: Not Any with ContextActive *)
Example stage_test_17 : replay "
ContextActive >> R ^ S
A             >> Virtual1
B             >> !Any T
" false [
  OSize 1;
  OCtx [ 0 ]%nat (Some "+R -R");
  OIn "+A" "+Virtual1";
  OIn "+Virtual1" "";
  OIn "-A" "-Virtual1";
  OIn "+ShiftLeft" "+ShiftLeft";
  OIn "+B" "-ShiftLeft +T";
  OIn "-B" "-T";
  OIn "+C" "+ShiftLeft +C";
  OIn "-C" "-C"] = Pass.
Proof. vm_compute. reflexivity. Qed.

(** test3_Stage.cpp: Not in middle of output *)
Example stage_test_18 : replay "
Shift    >> Shift
Shift{X} >> 2 !Shift 1
" true [
  OIn "+ShiftLeft" "+ShiftLeft";
  OSeq "#ShiftLeft";
  OIn "+X" "+2 -ShiftLeft +1";
  OSeq "#ShiftLeft #X";
  OIn "+X" "+ShiftLeft -2 +2 -ShiftLeft -1 +1";
  OIn "+X" "+ShiftLeft -2 +2 -ShiftLeft -1 +1";
  OIn "-X" "-1 -2";
  OIn "-ShiftLeft" "";
  OClear true;
  OIn "+ShiftLeft" "+ShiftLeft";
  OIn "+X" "+2 -ShiftLeft +1";
  OIn "-X" "-1 -2";
  OIn "+X" "+ShiftLeft +2 -ShiftLeft +1";
  OIn "-X" "-1 -2";
  OIn "+Y" "+ShiftLeft +Y";
  OIn "-Y" "-Y";
  OIn "-ShiftLeft" "-ShiftLeft"] = Pass.
Proof. vm_compute. reflexivity. Qed.

(** test3_Stage.cpp: Toggle Virtual *)
Example stage_test_19 : replay "
ScrollLock  >> Virtual1 X Virtual2
Virtual1{A} >> 1
Virtual2{B} >> 2
" true [
  OIn "+A" "+A";
  OIn "-A" "-A";
  OIn "+B" "+B";
  OIn "-B" "-B";
  OIn "+ScrollLock" "+Virtual1 -Virtual1 +X -X +Virtual2 -Virtual2";
  OIn "+Virtual1" "";
  OIn "+Virtual2" "";
  OIn "-ScrollLock" "";
  OSeq "#Virtual1 #Virtual2";
  OIn "+A" "+1";
  OIn "-A" "-1";
  OIn "+B" "+2";
  OIn "-B" "-2";
  OIn "+ScrollLock" "+Virtual1 -Virtual1 +X -X +Virtual2 -Virtual2";
  OIn "-Virtual1" "";
  OIn "-Virtual2" "";
  OIn "-ScrollLock" "";
  OClear true;
  OIn "+A" "+A";
  OIn "-A" "-A";
  OIn "+B" "+B";
  OIn "-B" "-B"] = Pass.
Proof. vm_compute. reflexivity. Qed.

(** test3_Stage.cpp: Not Virtual *)
Example stage_test_20 : replay "
A >> Virtual1
B >> !Virtual1
C >> !Virtual1 Virtual1
Virtual1{X} >> Y
" true [
  OIn "+X" "+X";
  OIn "-X" "-X";
  OClear true;
  OIn "+A" "+Virtual1";
  OIn "+Virtual1" "";
  OIn "-A" "-Virtual1";
  OIn "+Y" "+Y";
  OIn "-Y" "-Y";
  OIn "+B" "+Virtual1";
  OIn "-Virtual1" "";
  OIn "-B" "-Virtual1";
  OIn "+X" "+X";
  OIn "-X" "-X";
  OIn "+B" "";
  OIn "-B" "";
  OIn "+X" "+X";
  OIn "-X" "-X";
  OClear true;
  OIn "+C" "+Virtual1";
  OIn "+Virtual1" "";
  OIn "-C" "-Virtual1";
  OIn "+Y" "+Y";
  OIn "-Y" "-Y";
  OIn "+C" "+Virtual1 +Virtual1";
  OIn "-Virtual1 +Virtual1" "";
  OIn "-C" "-Virtual1";
  OIn "+Y" "+Y";
  OIn "-Y" "-Y"] = Pass.
Proof. vm_compute. reflexivity. Qed.

(** test3_Stage.cpp: Press already pressed *)
Example stage_test_21 : replay "
Shift >> Shift
Shift{Quote} >> Shift{2}
" true [
  OIn "+ShiftLeft" "+ShiftLeft";
  OIn "+Quote" "+2 -2";
  OIn "+Quote" "+2 -2";
  OIn "-Quote" "";
  OIn "+G" "+G";
  OIn "-G" "-G";
  OIn "-ShiftLeft" "-ShiftLeft"] = Pass.
Proof. vm_compute. reflexivity. Qed.

(** test3_Stage.cpp: Press already pressed, with Not *)
Example stage_test_22 : replay "
Shift    >> Shift
Shift{X} >> !Shift 1
Shift{Y} >> 1
" true [
  OIn "+ShiftLeft" "+ShiftLeft";
  OSeq "#ShiftLeft";
  OIn "+X" "-ShiftLeft +1";
  OSeq "#ShiftLeft #X";
  OIn "+Y" "+ShiftLeft -1 +1";
  OIn "-Y" "";
  OIn "-X" "-1";
  OIn "-ShiftLeft" "-ShiftLeft";
  OClear true] = Pass.
Proof. vm_compute. reflexivity. Qed.

(** test3_Stage.cpp: Press already pressed, with Not 2 *)
Example stage_test_23 : replay "
Shift >> Shift
Shift{Comma}  >> !Shift IntlBackslash   # <
Shift{Period} >> Shift{IntlBackslash}   # >
" true [
  OIn "+ShiftLeft" "+ShiftLeft";
  OIn "+Period" "+IntlBackslash -IntlBackslash";
  OIn "-Period" "";
  OIn "-ShiftLeft" "-ShiftLeft";
  OIn "+ShiftLeft" "+ShiftLeft";
  OIn "+Comma" "-ShiftLeft +IntlBackslash";
  OIn "-Comma" "-IntlBackslash";
  OIn "-ShiftLeft" "";
  OIn "+ShiftLeft" "+ShiftLeft";
  OIn "+Comma" "-ShiftLeft +IntlBackslash";
  OIn "+Period" "+ShiftLeft -IntlBackslash +IntlBackslash -IntlBackslash -ShiftLeft";
  OIn "-Comma" "";
  OIn "-Period" "";
  OIn "+Comma" "+IntlBackslash";
  OIn "+Period" "+ShiftLeft -IntlBackslash +IntlBackslash -IntlBackslash -ShiftLeft";
  OIn "-Comma" "";
  OIn "-Period" "";
  OIn "-ShiftLeft" ""] = Pass.
Proof. vm_compute. reflexivity. Qed.

(** test3_Stage.cpp: Complex modifier - ordered *)
Example stage_test_24 : replay "
Control >> Control
Control{W{I}} >> A
" true [
  OIn "+W" "+W";
  OIn "-W" "-W";
  OIn "+ControlLeft" "+ControlLeft";
  OIn "+W" "";
  OIn "+I" "+A";
  OIn "-I" "-A";
  OIn "-W" "";
  OIn "+I" "+I";
  OIn "-I" "-I";
  OIn "-ControlLeft" "-ControlLeft";
  OIn "+W" "+W";
  OIn "+ControlLeft" "+ControlLeft";
  OIn "+I" "+I";
  OIn "-I" "-I";
  OIn "-W" "-W";
  OIn "-ControlLeft" "-ControlLeft"] = Pass.
Proof. vm_compute. reflexivity. Qed.

(** test3_Stage.cpp: Complex modifier - unordered *)
Example stage_test_25 : replay "
Shift   >> Shift
Control >> Control
(Control Shift){I} >> A
" true [
  OIn "+ShiftLeft" "+ShiftLeft";
  OIn "-ShiftLeft" "-ShiftLeft";
  OIn "+ControlLeft" "+ControlLeft";
  OIn "+ShiftLeft" "+ShiftLeft";
  OSeq "#ControlLeft #ShiftLeft";
  OIn "+I" "+A";
  OIn "-I" "-A";
  OIn "-ShiftLeft" "-ShiftLeft";
  OSeq "#ControlLeft";
  OIn "+I" "+I";
  OIn "-I" "-I";
  OIn "-ControlLeft" "-ControlLeft";
  OClear true;
  OIn "+ShiftLeft" "+ShiftLeft";
  OIn "+ControlLeft" "+ControlLeft";
  OSeq "#ShiftLeft #ControlLeft";
  OIn "+I" "+A";
  OIn "-I" "-A";
  OIn "-ControlLeft" "-ControlLeft";
  OIn "-ShiftLeft" "-ShiftLeft";
  OClear true] = Pass.
Proof. vm_compute. reflexivity. Qed.

(** test3_Stage.cpp: Might match, then no match or match *)
Example stage_test_26 : replay "
D    >> 0
A{B} >> 1
B    >> 2
C    >> 3
" true [
  OIn "+A" "";
  OIn "-A" "+A -A";
  OIn "+A" "";
  OIn "+X" "+A +X";
  OIn "-A" "-A";
  OIn "+A" "";
  OIn "+D" "+A +0";
  OIn "-D" "-0";
  OIn "-A" "-A";
  OIn "+A" "";
  OIn "+C" "+A +3";
  OIn "-C" "-3";
  OIn "-A" "-A";
  OIn "+A" "";
  OIn "+B" "+1";
  OIn "-B" "-1";
  OIn "+B" "+1";
  OIn "-B" "-1";
  OIn "-A" "";
  OIn "+B" "+2";
  OIn "-B" "-2"] = Pass.
Proof. vm_compute. reflexivity. Qed.

(** test3_Stage.cpp: Keyrepeat might match *)
Example stage_test_27 : replay "
Space{C} >> Control{C}
" true [
  OIn "+Space" "";
  OIn "+Space" "";
  OIn "+C" "+ControlLeft +C -C -ControlLeft";
  OIn "+C" "+ControlLeft +C -C -ControlLeft";
  OIn "-C" "";
  OIn "-Space" "";
  OIn "+Space" "";
  OIn "+Space" "";
  OIn "+D" "+Space +D";
  OIn "-D" "-D";
  OIn "-Space" "-Space";
  OIn "+Space" "";
  OIn "+Space" "";
  OIn "-Space" "+Space -Space"] = Pass.
Proof. vm_compute. reflexivity. Qed.

(** test3_Stage.cpp: Might match problem *)
Example stage_test_28 : replay "
Space{C}             >> Control{C}
IntlBackslash{Space} >> Space
" true [
  OIn "+IntlBackslash" "";
  OIn "+Space" "+Space";
  OIn "+Space" "";
  OIn "+Space" "";
  OIn "-Space" "+Space -Space";
  OIn "-IntlBackslash" ""] = Pass.
Proof. vm_compute. reflexivity. Qed.

(** test3_Stage.cpp: Any key *)
Example stage_test_29 : replay "
Meta >> Meta
Meta{Any} >> Any
A >> B
E >> F

K >> Any S
" true [
  OIn "+A" "+B";
  OIn "-A" "-B";
  OIn "+E" "+F";
  OIn "-E" "-F";
  OIn "+H" "+H";
  OIn "-H" "-H";
  OClear true;
  OIn "+MetaLeft" "+MetaLeft";
  OIn "+A" "+A";
  OIn "+E" "+E";
  OIn "+H" "+H";
  OIn "-A" "-A";
  OIn "-E" "-E";
  OIn "-H" "-H";
  OIn "-MetaLeft" "-MetaLeft";
  OClear true;
  OIn "+K" "+S -S";
  OIn "-K" "";
  OClear true] = Pass.
Proof. vm_compute. reflexivity. Qed.

(** test3_Stage.cpp: Not Any checks previously matched *)
Example stage_test_30 : replay "
A{X !X}     >> Meta{X}
B{Any !Any} >> Meta{Any}
" true [
  OIn "+A" "";
  OIn "+X" "";
  OIn "-X" "+MetaLeft +X -X -MetaLeft";
  OIn "-A" "";
  OClear true;
  OIn "+A" "";
  OIn "+X" "";
  OIn "-A" "+A +X -A";
  OIn "-X" "-X";
  OClear true;
  OIn "+A" "";
  OIn "-A" "+A -A";
  OClear true;
  OIn "+B" "";
  OIn "+R" "";
  OIn "-R" "+MetaLeft +R -R -MetaLeft";
  OIn "-B" "";
  OClear true;
  OIn "+B" "";
  OIn "+R" "";
  OIn "-B" "+B +R -B";
  OIn "-R" "-R";
  OClear true;
  OIn "+B" "";
  OIn "-B" "+B -B";
  OClear true] = Pass.
Proof. vm_compute. reflexivity. Qed.

(** test3_Stage.cpp: Any key might match *)
Example stage_test_31 : replay "
L Any >> E{Any}
M Any N >> F{Any}
O Any P >> G{Any Any}
Q Any Any R >> H{Any Any}
" true [
  OIn "+L" "";
  OIn "+Z" "+E +Z -Z -E";
  OIn "+Z" "+E +Z -Z -E";
  OIn "-Z" "";
  OIn "-L" "";
  OClear true;
  OIn "+M" "";
  OIn "+Z" "";
  OIn "+N" "+F +Z -Z -F";
  OIn "-N" "";
  OIn "-Z" "";
  OIn "-M" "";
  OClear true;
  OIn "+M" "";
  OIn "+Z" "";
  OIn "-Z" "";
  OIn "+N" "+F +Z -Z -F";
  OIn "-N" "";
  OIn "-M" "";
  OClear true;
  OIn "+O" "";
  OIn "+Z" "";
  OIn "-Z" "";
  OIn "+P" "+G +Z -Z +Z -Z -G";
  OIn "-P" "";
  OIn "-O" "";
  OClear true;
  OIn "+Q" "";
  OIn "+Z" "";
  OIn "-Z" "";
  OIn "+Y" "";
  OIn "-Y" "";
  OIn "+R" "+H +Z +Y -Z -Y +Z +Y -Z -Y -H";
  OIn "-R" "";
  OIn "-Q" "";
  OClear true] = Pass.
Proof. vm_compute. reflexivity. Qed.

(** test3_Stage.cpp: Output on release *)
Example stage_test_32 : replay "
A  >>  X ^ Y
MetaLeft{C} >> MetaLeft{R} ^ C M
B !B  >>  X ^ Y
" true [
  OIn "+A" "+X -X";
  OIn "+A" "";
  OIn "-A" "+Y -Y";
  OClear true;
  OIn "+MetaLeft" "";
  OIn "+C" "+MetaLeft +R -R -MetaLeft";
  OIn "+C" "";
  OIn "+C" "";
  OIn "-C" "+C -C +M -M";
  OIn "-MetaLeft" "";
  OClear true;
  OIn "+B" "";
  OIn "+B" "";
  OIn "-B" "+X -X +Y -Y";
  OClear true] = Pass.
Proof. vm_compute. reflexivity. Qed.

(** test3_Stage.cpp: Output on release at once *)
Example stage_test_33 : replay "
A{B{C}} >> Z
A{B}    >> X ^ Y
" true [
  OIn "+A" "";
  OIn "+B" "";
  OIn "+C" "+Z";
  OIn "-A" "";
  OIn "-B" "";
  OIn "-C" "-Z";
  OClear true;
  OIn "+A" "";
  OIn "+B" "";
  OIn "-B" "+X -X +Y -Y";
  OIn "-A" "";
  OClear true] = Pass.
Proof. vm_compute. reflexivity. Qed.

(** test3_Stage.cpp: Interleaving output on release *)
Example stage_test_34 : replay "
ButtonForward >> U ^ M
ButtonBack    >> N ^ P
" true [
  OIn "+ButtonForward" "+U -U";
  OIn "+ButtonForward" "";
  OIn "-ButtonForward" "+M -M";
  OClear true;
  OIn "+ButtonForward" "+U -U";
  OIn "+ButtonForward" "";
  OIn "+A" "+A";
  OIn "-A" "-A";
  OIn "-ButtonForward" "+M -M";
  OClear true;
  OIn "+ButtonForward" "+U -U";
  OIn "+ButtonForward" "";
  OIn "+ButtonBack" "+N -N";
  OIn "+ButtonBack" "";
  OIn "-ButtonForward" "+M -M";
  OIn "-ButtonBack" "+P -P";
  OClear true] = Pass.
Proof. vm_compute. reflexivity. Qed.

(** test3_Stage.cpp: Output on release toggle virtual *)
Example stage_test_35 : replay "
MetaLeft       >> Virtual1 ^ Virtual1
Virtual1{A}    >> X
!Virtual1 A    >> Y
" true [
  OIn "+A" "+Y";
  OIn "+A" "+Y";
  OIn "-A" "-Y";
  OIn "+MetaLeft" "+Virtual1 -Virtual1";
  OIn "+Virtual1" "";
  OIn "+MetaLeft" "";
  OSeq "#MetaLeft #Virtual1";
  OIn "+A" "+X";
  OIn "+A" "+X";
  OIn "-A" "-X";
  OIn "-MetaLeft" "+Virtual1 -Virtual1";
  OIn "-Virtual1" "";
  OSeq "";
  OIn "+A" "+Y";
  OIn "+A" "+Y";
  OIn "-A" "-Y";
  OClear true] = Pass.
Proof. vm_compute. reflexivity. Qed.

(** test3_Stage.cpp: Output on release with timeout *)
Example stage_test_36 : replay "
Escape{250ms}  >>  X ^ Y
" true [
  OIn "+Escape" "-250ms";
  OTimeout 123 "+Escape";
  OIn "-Escape" "-Escape";
  OClear true;
  OIn "+Escape" "-250ms";
  OTimeout 250 "+X -X";
  OIn "-Escape" "+Y -Y"] = Pass.
Proof. vm_compute. reflexivity. Qed.

(** test3_Stage.cpp: Cancelling output on release *)
Example stage_test_37 : replay "
ButtonForward  >> $(system command 1) ^ $(system command 2)

[title = ""SomeApp""]
ButtonMiddle >> ButtonLeft ^ M
" true [
  OCtx [ 0; 1 ]%nat None;
  OIn "+ButtonMiddle" "+ButtonLeft -ButtonLeft";
  OIn "+ButtonMiddle" "";
  OIn "-ButtonMiddle" "+M -M";
  OClear true;
  OIn "+ButtonMiddle" "+ButtonLeft -ButtonLeft";
  OIn "+ButtonMiddle" "";
  OCtx [ 0 ]%nat None;
  OIn "-ButtonMiddle" "";
  OClear true;
  OCtx [ 0; 1 ]%nat None;
  OIn "+ButtonForward" "+Action0";
  OIn "+ButtonForward" "";
  OCtx [ 0 ]%nat None;
  OIn "-ButtonForward" "+Action1 -Action1 -Action0";
  OClear true] = Pass.
Proof. vm_compute. reflexivity. Qed.

(** test3_Stage.cpp: System context *)
Example stage_test_38 : replay "
A >> commandA
B >> commandB

[system=""Linux""]
commandA >> E

[system=""Windows""]
commandA >> F

[system=""Windows""]
commandB >> H

[system=""Linux""]
commandB >> G
" true [
  OSize 3;
  OIn "+A -A" "+E -E";
  OIn "+B -B" "+G -G"] = Pass.
Proof. vm_compute. reflexivity. Qed.

(** test3_Stage.cpp: System context - partially mapped *)
Example stage_test_39 : replay "
# no mapping in other system
A >> commandLinux
B >> commandWindows
C >> commandLinuxDefault
D >> commandWindowsDefault

commandLinuxDefault >> I
commandWindowsDefault >> J

[system=""Linux""]
commandLinux >> E
commandLinuxDefault >> F

[system=""Windows""]
commandWindows >> G
commandWindowsDefault >> H
" true [
  OSize 2;
  OIn "+A -A" "+E -E";
  OIn "+B -B" "+B -B";
  OIn "+C -C" "+F -F";
  OIn "+D -D" "+J -J"] = Pass.
Proof. vm_compute. reflexivity. Qed.

(** test3_Stage.cpp: Mapping sequence in context *)
Example stage_test_40 : replay "
R >> R

[title=""Firefox""]
A >> B
R >> U
X >> Y

[title=""Konsole""]
A >> C
R >> V
X >> Z

[system=""Linux""]
A >> E

[system=""Windows""]
A >> F
" true [
  OSize 4;
  OCtx [ 0; 3 ]%nat None;
  OIn "+A -A" "+E -E";
  OIn "+R -R" "+R -R";
  OIn "+X -X" "+X -X";
  OCtx [ 0; 1; 3 ]%nat None;
  OIn "+A -A" "+B -B";
  OIn "+R -R" "+R -R";
  OIn "+X -X" "+Y -Y";
  OCtx [ 0; 2; 3 ]%nat None;
  OIn "+A -A" "+C -C";
  OIn "+R -R" "+R -R";
  OIn "+X -X" "+Z -Z"] = Pass.
Proof. vm_compute. reflexivity. Qed.

(** test3_Stage.cpp: Mapping sequence in context - comparison *)
Example stage_test_41 : replay "
A >> command
R >> command2
command2 >> R
X >> command3

[system=""Linux""]
command >> E

[system=""Windows""]
command >> F

[title=""Firefox""]
command >> B
command2 >> U
command3 >> Y

[title=""Konsole""]
command >> C
command2 >> V
command3 >> Z
" true [
  OSize 4;
  OCtx [ 0; 1 ]%nat None;
  OIn "+A -A" "+E -E";
  OIn "+R -R" "+R -R";
  OIn "+X -X" "+X -X";
  OCtx [ 0; 1; 2 ]%nat None;
  OIn "+A -A" "+B -B";
  OIn "+R -R" "+U -U";
  OIn "+X -X" "+Y -Y";
  OCtx [ 0; 1; 3 ]%nat None;
  OIn "+A -A" "+C -C";
  OIn "+R -R" "+V -V";
  OIn "+X -X" "+Z -Z"] = Pass.
Proof. vm_compute. reflexivity. Qed.

(** test3_Stage.cpp: Restore default context *)
Example stage_test_42 : replay "
[title=""AnyDesk""]
Any >> Any

[default]
R >> R

[title=""Firefox""]
A >> B
R >> U
X >> Y

[title=""Konsole""]
A >> C
R >> V
X >> Z

[system=""Linux""]
A >> E

[system=""Windows""]
A >> F
" true [
  OSize 5;
  OCtx [ 1; 4 ]%nat None;
  OIn "+A -A" "+E -E";
  OIn "+R -R" "+R -R";
  OIn "+X -X" "+X -X";
  OCtx [ 1; 2; 4 ]%nat None;
  OIn "+A -A" "+B -B";
  OIn "+R -R" "+R -R";
  OIn "+X -X" "+Y -Y";
  OCtx [ 1; 3; 4 ]%nat None;
  OIn "+A -A" "+C -C";
  OIn "+R -R" "+R -R";
  OIn "+X -X" "+Z -Z";
  OCtx [ 0; 0; 1; 4 ]%nat None;
  OIn "+A -A" "+A -A";
  OIn "+R -R" "+R -R";
  OIn "+X -X" "+X -X"] = Pass.
Proof. vm_compute. reflexivity. Qed.

(** test3_Stage.cpp: Context with modifier filter *)
Example stage_test_43 : replay "
[default]
A >> command
B >> Virtual1

[modifier=""!Virtual1""]
command >> Z

[modifier=""Virtual1 Shift""] # adds one implicit fallthrough context
command >> W

[title=""Firefox""]
command >> X

[title=""Firefox"" modifier=""ShiftLeft""]
command >> Y
" true [
  OSize 6;
  OCtx [ 0; 1; 2; 3 ]%nat None;
  OIn "+A -A" "+Z -Z";
  OClear true;
  OIn "+B -B" "+Virtual1 -Virtual1";
  OIn "+Virtual1" "";
  OIn "+A -A" "+A -A";
  OIn "+ShiftLeft" "+ShiftLeft";
  OIn "+A -A" "+W -W";
  OIn "-ShiftLeft" "-ShiftLeft";
  OIn "+ShiftRight" "+ShiftRight";
  OIn "+A -A" "+W -W";
  OIn "-ShiftRight" "-ShiftRight";
  OIn "+B -B" "+Virtual1 -Virtual1";
  OIn "-Virtual1" "";
  OClear true;
  OCtx [ 0; 1; 2; 3; 4; 5 ]%nat None;
  OIn "+A -A" "+X -X";
  OClear true;
  OIn "+ShiftLeft" "+ShiftLeft";
  OIn "+A" "+Y";
  OIn "-A" "-Y";
  OIn "-ShiftLeft" "-ShiftLeft";
  OClear true] = Pass.
Proof. vm_compute. reflexivity. Qed.

(** test3_Stage.cpp: Context with modifier filter #2 *)
Example stage_test_44 : replay "
[modifier='A']
E >> F

[default]
A >> B
" true [
  OSize 2;
  OIn "+A -A" "+B -B";
  OIn "+E -E" "+E -E";
  OIn "+A +E -E -A" "+B +F -F -B";
  OClear true] = Pass.
Proof. vm_compute. reflexivity. Qed.

(** test3_Stage.cpp: Context with modifier filter and ContextActive mapping *)
Example stage_test_45 : replay "
[default]
Virtual1{ U } >> R
Virtual2{ U } >> S
U >> V

[modifier=""A""]
ContextActive >> X

[modifier=""B""]
ContextActive >> Virtual1

[modifier=""C""]
U >> W

[modifier=""D""]
ContextActive >> Virtual2 ^ Virtual2
" false [
  OSize 5;
  OCtx [ 0; 1; 2; 3; 4 ]%nat (Some "");
  OIn "+A" "+X +A";
  OIn "-A" "-A -X";
  OIn "+U" "+V";
  OIn "-U" "-V";
  OIn "+B" "+Virtual1 +B";
  OIn "+Virtual1" "";
  OIn "-B" "-B -Virtual1";
  OIn "+U" "+R";
  OIn "-U" "-R";
  OIn "+B" "+Virtual1 +B";
  OIn "-Virtual1" "";
  OIn "-B" "-B -Virtual1";
  OIn "+U" "+V";
  OIn "-U" "-V";
  OIn "+D" "+Virtual2 -Virtual2 +D";
  OIn "+Virtual2" "";
  OIn "+U" "+S";
  OIn "-U" "-S";
  OIn "-D" "-D +Virtual2 -Virtual2";
  OIn "-Virtual2" "";
  OIn "+U" "+V";
  OIn "-U" "-V";
  OClear true] = Pass.
Proof. vm_compute. reflexivity. Qed.

(** test3_Stage.cpp: Context with modifier filter and string typing *)
Example stage_test_46 : replay "
[modifier = Virtual1]
A >> ""X""

[default]
ContextActive >> Virtual1
" false [
  OSize 2;
  OCtx [ 0; 1 ]%nat (Some "+Virtual1");
  OIn "+Virtual1" "";
  OIn "+A" "+ShiftLeft +X -X -ShiftLeft";
  OIn "+A" "+ShiftLeft +X -X -ShiftLeft";
  OIn "-A" "";
  OIn "+A" "+ShiftLeft +X -X -ShiftLeft";
  OIn "-A" "";
  OIn "+B" "+B";
  OIn "-B" "-B";
  OIn "+A" "+ShiftLeft +X -X -ShiftLeft";
  OIn "-A" ""] = Pass.
Proof. vm_compute. reflexivity. Qed.

(** test3_Stage.cpp: Context with modifier filter - layer switch *)
Example stage_test_47 : replay "
ContextActive >> Virtual1

[modifier = Virtual1]
A >> Virtual1 Virtual2
B >> X

[modifier = Virtual2]
A >> Virtual2 Virtual3
B >> Y

[modifier = Virtual3]
A >> Virtual3 Virtual1
B >> Z
" false [
  OSize 4;
  OCtx [ 0; 1; 2; 3 ]%nat (Some "+Virtual1");
  OIn "+Virtual1" "";
  OIn "+B" "+X";
  OIn "-B" "-X";
  OIn "+A" "+Virtual1 -Virtual1 +Virtual2 -Virtual2";
  OIn "-Virtual1 +Virtual2" "";
  OIn "-A" "";
  OIn "+B" "+Y";
  OIn "-B" "-Y"] = Pass.
Proof. vm_compute. reflexivity. Qed.

(** test3_Stage.cpp: Initially active contexts and ContextActive mapping *)
Example stage_test_48 : replay "
[default]
ContextActive >> Y

[modifier=""!A""]
ContextActive >> X
" false [
  OCtx [ 0; 1 ]%nat (Some "+Y +X");
  OIn "+A" "-X +A";
  OIn "-A" "-A +X"] = Pass.
Proof. vm_compute. reflexivity. Qed.

(** test3_Stage.cpp: Initially active contexts and ContextActive mapping #2 *)
Example stage_test_49 : replay "
[default]
ContextActive >> Y ^ Z

[modifier=""!A""]
ContextActive >> X ^ W
" false [
  OCtx [ 0; 1 ]%nat (Some "+Y -Y +X -X");
  OIn "+A" "+W -W +A";
  OIn "-A" "-A +X -X"] = Pass.
Proof. vm_compute. reflexivity. Qed.

(** test3_Stage.cpp: Focusing window with ContextActive mapping *)
Example stage_test_50 : replay "
[title=""Thunar""]
ContextActive >> A ^ B

[title=""Firefox""]
ContextActive >> C ^ D
" false [
  OSize 2;
  OCtx [ 0 ]%nat (Some "+A -A");
  OCtx [ 1 ]%nat (Some "+B -B +C -C");
  OCtx [ 0 ]%nat (Some "+D -D +A -A");
  OCtx [ ]%nat (Some "+B -B");
  OClear true] = Pass.
Proof. vm_compute. reflexivity. Qed.

(** test3_Stage.cpp: Fallthrough contexts *)
Example stage_test_51 : replay "
[title=""Thunar""]
[class=""thunar""]
A >> X

[title=""Firefox""]
[system=""Linux""]   # two of
[system=""Windows""] # three
[system=""MacOS""]   # are removed
B >> Y
" false [
  OSize 4;
  OCtx [ 0 ]%nat (Some "");
  OIn "+A +B -A -B" "+X +B -X -B";
  OCtx [ 1 ]%nat (Some "");
  OIn "+A +B -A -B" "+X +B -X -B";
  OCtx [ 2 ]%nat (Some "");
  OIn "+A +B -A -B" "+A +Y -A -Y";
  OCtx [ 3 ]%nat (Some "");
  OIn "+A +B -A -B" "+A +Y -A -Y";
  OClear true] = Pass.
Proof. vm_compute. reflexivity. Qed.

(** test3_Stage.cpp: Trigger action *)
Example stage_test_52 : replay "
A >> A $(system command 1)
B >> $(system command 2) B
C >> E{F} $(system (command) 3) G{H}
D >> ^ $(system command 4)
E >> $(system command 5) ^
" true [
  OIn "+A" "+A -A +Action0";
  OIn "-A" "-Action0";
  OIn "+B" "+Action1 +B";
  OIn "-B" "-B -Action1";
  OIn "+C" "+E +F -F -E +Action2 +G +H -H -G";
  OIn "-C" "-Action2";
  OIn "+D" "";
  OIn "+D" "";
  OIn "-D" "+Action3 -Action3";
  OIn "+E" "+Action4";
  OIn "+E" "";
  OIn "-E" "-Action4";
  OClear true] = Pass.
Proof. vm_compute. reflexivity. Qed.

(** test3_Stage.cpp: Release output with modifiers before next output *)
Example stage_test_53 : replay "
A >> ShiftLeft{B}
S >> T
" true [
  OIn "+A" "+ShiftLeft +B -B -ShiftLeft";
  OIn "+A" "+ShiftLeft +B -B -ShiftLeft";
  OIn "-A" "";
  OClear true;
  OIn "+A" "+ShiftLeft +B -B -ShiftLeft";
  OIn "+C" "+C";
  OIn "+C" "+C";
  OIn "-C" "-C";
  OIn "-A" "";
  OClear true;
  OIn "+S" "+T";
  OIn "+S" "+T";
  OIn "+C" "+C";
  OIn "+C" "+C";
  OIn "-C" "-C";
  OIn "-S" "-T";
  OClear true;
  OIn "+ShiftLeft" "+ShiftLeft";
  OIn "+A" "+B -B";
  OIn "+A" "+B -B";
  OIn "+C" "+C";
  OIn "+C" "+C";
  OIn "-A" "";
  OIn "-C" "-C";
  OIn "-ShiftLeft" "-ShiftLeft";
  OClear true] = Pass.
Proof. vm_compute. reflexivity. Qed.

(** test3_Stage.cpp: Old common modifier behaviour *)
Example stage_test_54 : replay "
Alt = AltLeft

# used to be implicitly mapped
Shift   >> Shift
Control >> Control
Alt     >> Alt

Alt{W}  >> !Alt IntlBackslash
Alt{X}  >> !Alt Shift{IntlBackslash}
" true [
  OIn "+AltLeft" "+AltLeft";
  OIn "+W" "-AltLeft +IntlBackslash";
  OIn "-W" "-IntlBackslash";
  OIn "-AltLeft" "";
  OIn "+AltLeft" "+AltLeft";
  OIn "+X" "-AltLeft +ShiftLeft +IntlBackslash -IntlBackslash -ShiftLeft";
  OIn "-X" "";
  OIn "-AltLeft" ""] = Pass.
Proof. vm_compute. reflexivity. Qed.

(** test3_Stage.cpp: New common modifier behaviour *)
Example stage_test_55 : replay "
Alt = AltLeft
Shift         >> Shift
Control       >> Control
(Control Alt) >> !Control Alt   # Alt mouse modifier

Alt{W} >> IntlBackslash
Alt{X} >> Shift{IntlBackslash}
" true [
  OIn "+AltLeft" "";
  OIn "+W" "+IntlBackslash";
  OIn "-W" "-IntlBackslash";
  OIn "-AltLeft" "";
  OIn "+AltLeft" "";
  OIn "+X" "+ShiftLeft +IntlBackslash -IntlBackslash -ShiftLeft";
  OIn "-X" "";
  OIn "-AltLeft" "";
  OIn "+AltLeft" "";
  OIn "+F" "+AltLeft +F";
  OIn "-F" "-F";
  OIn "-AltLeft" "-AltLeft";
  OClear true;
  OIn "+AltLeft" "";
  OIn "+ControlLeft" "+AltLeft";
  OIn "-ControlLeft" "";
  OIn "-AltLeft" "-AltLeft";
  OClear true;
  OIn "+ControlLeft" "+ControlLeft";
  OIn "+AltLeft" "-ControlLeft +AltLeft";
  OIn "-ControlLeft" "";
  OIn "-AltLeft" "-AltLeft"] = Pass.
Proof. vm_compute. reflexivity. Qed.

(** test3_Stage.cpp: Continue matching after failed might-match *)
Example stage_test_56 : replay "
A{B{C}}   >> Z
A{B}      >> Y
A{D{E}}   >> W
A         >> X
D{F}      >> U
" true [
  OIn "+A" "";
  OIn "-A" "+X -X";
  OIn "+A" "";
  OIn "+B" "";
  OIn "-B" "+Y -Y";
  OIn "-A" "";
  OIn "+A" "";
  OIn "+B" "";
  OIn "+C" "+Z";
  OIn "-C" "-Z";
  OIn "-B" "";
  OIn "-A" "";
  OIn "+A" "";
  OIn "+S" "+X +S";
  OIn "-S" "-S";
  OIn "-A" "-X";
  OIn "+A" "";
  OIn "+B" "";
  OIn "+S" "+Y +S";
  OIn "-S" "-S";
  OIn "-B" "-Y";
  OIn "-A" "";
  OIn "+A" "";
  OIn "+D" "";
  OIn "+S" "+X +D +S";
  OIn "-S" "-S";
  OIn "-D" "-D";
  OIn "-A" "-X";
  OIn "+A" "";
  OIn "+D" "";
  OIn "+F" "+X +U";
  OIn "-F" "-U";
  OIn "-D" "";
  OIn "-A" "-X"] = Pass.
Proof. vm_compute. reflexivity. Qed.

(** test3_Stage.cpp: Timeout Hold *)
Example stage_test_57 : replay "
A{1000ms} >> X
" true [
  OIn "+A" "-1000ms";
  OTimeout 271 "+A";
  OIn "+B" "+B";
  OIn "-B" "-B";
  OIn "-A" "-A";
  OClear true;
  OIn "+A" "-1000ms";
  OTimeout 1000 "+X";
  OIn "+A" "-1000ms";
  OTimeout 1000 "+X";
  OIn "+A" "-1000ms";
  OTimeout 271 "";
  OIn "-A" "-X";
  OClear true;
  OIn "+ShiftLeft" "+ShiftLeft";
  OIn "+A" "-1000ms";
  OTimeout 271 "+A";
  OIn "-A" "-A";
  OIn "-ShiftLeft" "-ShiftLeft";
  OClear true;
  OIn "+ShiftLeft" "+ShiftLeft";
  OIn "+A" "-1000ms";
  OTimeout 271 "+A";
  OIn "-ShiftLeft" "-ShiftLeft";
  OIn "-A" "-A";
  OClear true] = Pass.
Proof. vm_compute. reflexivity. Qed.

(** test3_Stage.cpp: Timeout Hold, Another mapping *)
Example stage_test_58 : replay "
A{1000ms} >> X
A >> Z
" true [
  OIn "+A" "-1000ms";
  OTimeout 271 "+Z";
  OIn "+B" "+B";
  OIn "-B" "-B";
  OIn "-A" "-Z";
  OClear true;
  OIn "+A" "-1000ms";
  OTimeout 1000 "+X";
  OIn "+A" "-1000ms";
  OTimeout 1000 "+X";
  OIn "+A" "-1000ms";
  OTimeout 271 "";
  OIn "-A" "-X";
  OClear true;
  OIn "+A" "-1000ms";
  OTimeout 271 "+Z";
  OIn "-A" "-Z";
  OClear true] = Pass.
Proof. vm_compute. reflexivity. Qed.

(** test3_Stage.cpp: Timeout *)
Example stage_test_59 : replay "
A !A 1000ms >> X
E 1000ms >> Y
" true [
  OIn "+A" "";
  OIn "+A" "";
  OIn "+A" "";
  OIn "-A" "+1000ms";
  OIn "+B" "+A -A +B";
  OIn "-B" "-B";
  OClear true;
  OIn "+A" "";
  OIn "+A" "";
  OIn "+A" "";
  OIn "-A" "+1000ms";
  OTimeout 1000 "+X -X";
  OClear true;
  OIn "+E" "+1000ms";
  OTimeout 999 "+E";
  OIn "+F" "+F";
  OIn "-F" "-F";
  OIn "-E" "-E";
  OClear true;
  OIn "+E" "+1000ms";
  OTimeout 999 "+E";
  OIn "-E" "-E";
  OIn "+E" "+1000ms";
  OTimeout 1000 "+Y";
  OIn "-E" "-Y";
  OClear true;
  OIn "+E" "+1000ms";
  OTimeout 1000 "+Y";
  OIn "-E" "-Y";
  OClear true;
  OIn "+ShiftLeft" "+ShiftLeft";
  OIn "+E" "+1000ms";
  OTimeout 999 "+E";
  OIn "-ShiftLeft" "-ShiftLeft";
  OIn "+F" "+F";
  OIn "-F" "-F";
  OIn "-E" "-E";
  OClear true;
  OIn "+ShiftLeft" "+ShiftLeft";
  OIn "+E" "+1000ms";
  OTimeout 1000 "+Y";
  OIn "-ShiftLeft" "-ShiftLeft";
  OIn "-E" "-Y";
  OClear true] = Pass.
Proof. vm_compute. reflexivity. Qed.

(** test3_Stage.cpp: Timeout Switch *)
Example stage_test_60 : replay "
A{2000ms} >> X
A{1000ms} >> Y
A{500ms}  >> Z
" true [
  OIn "+A" "-2000ms";
  OTimeout 2000 "+X";
  OIn "+A" "-2000ms";
  OTimeout 2000 "+X";
  OIn "+A" "-2000ms";
  OTimeout 1999 "";
  OIn "-A" "-X";
  OClear true;
  OIn "+A" "-2000ms";
  OTimeout 1999 "+Y";
  OIn "-A" "-Y";
  OClear true;
  OIn "+A" "-2000ms";
  OTimeout 1000 "+Y";
  OIn "-A" "-Y";
  OClear true;
  OIn "+A" "-2000ms";
  OTimeout 999 "+Z";
  OIn "-A" "-Z";
  OClear true;
  OIn "+A" "-2000ms";
  OTimeout 500 "+Z";
  OIn "-A" "-Z";
  OClear true;
  OIn "+A" "-2000ms";
  OTimeout 499 "+A";
  OIn "-A" "-A";
  OClear true] = Pass.
Proof. vm_compute. reflexivity. Qed.

(** test3_Stage.cpp: Timeout Sequence #1 *)
Example stage_test_61 : replay "
A{500ms} B >> X
" true [
  OIn "+A" "-500ms";
  OIn "+A" "";
  OTimeout 500 "";
  OIn "+A" "";
  OIn "-A" "";
  OIn "+B" "+X";
  OIn "+B" "+B";
  OIn "+B" "+B";
  OIn "-B" "-B -X";
  OClear true;
  OIn "+A" "-500ms";
  OIn "+A" "";
  OTimeout 300 "+A";
  OIn "-A" "-A";
  OIn "+C" "+C";
  OIn "+C" "+C";
  OIn "-C" "-C";
  OClear true;
  OIn "+A" "-500ms";
  OTimeout 500 "";
  OIn "-A" "";
  OIn "+C" "+A -A +C";
  OIn "+C" "+C";
  OIn "-C" "-C";
  OClear true] = Pass.
Proof. vm_compute. reflexivity. Qed.

(** test3_Stage.cpp: Timeout Sequence #2 *)
Example stage_test_62 : replay "
A !A 500ms B >> X
E 500ms F >> Y
" true [
  OIn "+A" "";
  OIn "+A" "";
  OIn "-A" "+500ms";
  OTimeout 500 "";
  OIn "+B" "+X";
  OIn "+B" "+B";
  OIn "+B" "+B";
  OIn "-B" "-B -X";
  OClear true;
  OIn "+A" "";
  OIn "-A" "+500ms";
  OIn "+C" "+A -A +C";
  OIn "+C" "+C";
  OIn "-C" "-C";
  OClear true;
  OIn "+A" "";
  OIn "-A" "+500ms";
  OTimeout 500 "";
  OIn "+C" "+A -A +C";
  OIn "+C" "+C";
  OIn "-C" "-C";
  OClear true;
  OIn "+E" "+500ms";
  OTimeout 500 "";
  OIn "-E" "";
  OIn "+F" "+Y";
  OIn "+F" "+F";
  OIn "+F" "+F";
  OIn "-F" "-F -Y";
  OClear true;
  OIn "+E" "+500ms";
  OTimeout 500 "";
  OIn "+F" "+Y";
  OIn "+F" "+Y";
  OIn "+F" "+Y";
  OIn "-F" "-Y";
  OIn "-E" "";
  OClear true] = Pass.
Proof. vm_compute. reflexivity. Qed.

(** test3_Stage.cpp: Ignore cancelled timeout *)
Example stage_test_63 : replay "
Q{500ms} >> C
(Q W) >> A
Q   >> B
" true [
  OIn "+Q" "-500ms";
  OTimeout 500 "+C";
  OIn "+Q" "-500ms";
  OTimeout 500 "+C";
  OIn "+Q" "-500ms";
  OTimeout 499 "";
  OIn "-Q" "-C";
  OClear true;
  OIn "+Q" "-500ms";
  OTimeout 499 "";
  OIn "-Q" "+B -B";
  OClear true;
  OIn "+Q" "-500ms";
  OTimeout 499 "";
  OIn "+W" "+A";
  OIn "-W" "-A";
  OIn "-Q" "";
  OClear true;
  OIn "+W" "";
  OIn "-W" "+W -W";
  OClear true;
  OIn "+W" "";
  OIn "+Z" "+W +Z";
  OIn "-Z" "-Z";
  OIn "-W" "-W";
  OClear true;
  OIn "+W" "";
  OIn "+Q" "+A";
  OIn "-Q" "";
  OIn "-W" "-A";
  OIn "+W" "";
  OIn "+Q" "+A";
  OIn "-W" "-A";
  OIn "-Q" "";
  OClear true] = Pass.
Proof. vm_compute. reflexivity. Qed.

(** test3_Stage.cpp: Cancelled sequence *)
Example stage_test_64 : replay "
A S D >> W
A >> X
S >> Y
D >> Z
" true [
  OIn "+A" "";
  OIn "+S" "";
  OIn "-S" "";
  OIn "+D" "+W";
  OIn "-A" "";
  OIn "-D" "-W";
  OClear true;
  OIn "+A" "";
  OIn "+S" "";
  OIn "-S" "";
  OIn "+R" "+X +Y +R";
  OIn "-A" "-X";
  OIn "-R" "-R -Y";
  OClear true] = Pass.
Proof. vm_compute. reflexivity. Qed.

(** test3_Stage.cpp: Cancelled group *)
Example stage_test_65 : replay "
(A S D) >> W
A >> X
S >> Y
D >> Z
" true [
  OIn "+S" "";
  OIn "+D" "";
  OIn "+A" "+W";
  OIn "-A" "";
  OIn "-D" "-W";
  OIn "-S" "";
  OClear true;
  OIn "+S" "";
  OIn "+D" "";
  OIn "-D" "+Y +Z -Z";
  OIn "-S" "-Y";
  OClear true;
  OIn "+D" "";
  OIn "+S" "";
  OIn "-D" "+Z +Y -Z";
  OIn "-S" "-Y";
  OClear true] = Pass.
Proof. vm_compute. reflexivity. Qed.

(** test3_Stage.cpp: Cancelled group timeout *)
Example stage_test_66 : replay "
(A S){500ms} >> C
S >> R
" true [
  OIn "+A" "";
  OIn "+S" "-500ms";
  OTimeout 500 "+C";
  OIn "-A" "";
  OIn "-S" "-C";
  OClear true;
  OIn "+A" "";
  OIn "+S" "-500ms";
  OTimeout 499 "+A +R";
  OIn "-A" "-A";
  OIn "-S" "-R";
  OClear true;
  OIn "+S" "";
  OIn "+A" "-500ms";
  OTimeout 499 "+R +A";
  OIn "-A" "-A -R";
  OIn "-S" "";
  OClear true] = Pass.
Proof. vm_compute. reflexivity. Qed.

(** test3_Stage.cpp: Not Timeout Hold *)
Example stage_test_67 : replay "
A{!1000ms} >> X
A >> Y
" true [
  OIn "+A" "?1000ms";
  OTimeout 999 "";
  OIn "-A" "+X -X";
  OClear true;
  OIn "+A" "?1000ms";
  OTimeout 1000 "+Y";
  OIn "+A" "?1000ms";
  OTimeout 1000 "+Y";
  OIn "+A" "?1000ms";
  OTimeout 271 "";
  OIn "-A" "+Y -Y";
  OClear true;
  OIn "+A" "?1000ms";
  OTimeout 271 "";
  OIn "+B" "+Y +B";
  OIn "+B" "+B";
  OIn "-B" "-B";
  OIn "-A" "-Y";
  OClear true] = Pass.
Proof. vm_compute. reflexivity. Qed.

(** test3_Stage.cpp: Not Timeout Hold with ContextActive *)
Example stage_test_68 : replay "
ContextActive >>
A{!1000ms} >> X
" false [
  OCtx [ 0 ]%nat (Some "");
  OIn "+A" "?1000ms";
  OTimeout 1000 "+A";
  OIn "+A" "?1000ms";
  OTimeout 1000 "+A";
  OIn "+A" "?1000ms";
  OTimeout 271 "";
  OIn "-A" "+A -A";
  OClear true;
  OIn "+A" "?1000ms";
  OTimeout 999 "";
  OIn "-A" "+X -X";
  OClear true] = Pass.
Proof. vm_compute. reflexivity. Qed.

(** test3_Stage.cpp: Not Timeout *)
Example stage_test_69 : replay "
A !A !1000ms >> X
B !1000ms >> Y
" true [
  OIn "+A" "";
  OIn "-A" "!1000ms";
  OTimeout 999 "+X -X";
  OClear true;
  OIn "+A" "";
  OIn "-A" "!1000ms";
  OTimeout 1000 "+A -A";
  OClear true;
  OIn "+B" "!1000ms";
  OTimeout 999 "+Y";
  OIn "-B" "-Y";
  OClear true;
  OIn "+B" "!1000ms";
  OTimeout 1000 "+B";
  OIn "-B" "-B";
  OClear true] = Pass.
Proof. vm_compute. reflexivity. Qed.

(** test3_Stage.cpp: Timeout Xcape *)
Example stage_test_70 : replay "
ControlLeft{!500ms} >> Escape
ButtonLeft >> ButtonLeft
" true [
  OIn "+ControlLeft" "?500ms";
  OTimeout 500 "+ControlLeft";
  OIn "+ControlLeft" "?500ms";
  OTimeout 500 "+ControlLeft";
  OIn "+ControlLeft" "?500ms";
  OTimeout 271 "";
  OIn "-ControlLeft" "+ControlLeft -ControlLeft";
  OClear true;
  OIn "+ControlLeft" "?500ms";
  OTimeout 271 "";
  OIn "-ControlLeft" "+Escape -Escape";
  OClear true;
  OIn "+ControlLeft" "?500ms";
  OTimeout 271 "";
  OIn "+C" "+ControlLeft +C";
  OIn "-C" "-C";
  OIn "-ControlLeft" "-ControlLeft";
  OClear true;
  OIn "+ControlLeft" "?500ms";
  OTimeout 500 "+ControlLeft";
  OIn "+ControlLeft" "?500ms";
  OTimeout 271 "";
  OIn "+C" "+ControlLeft +C";
  OIn "+C" "+C";
  OIn "-C" "-C";
  OIn "-ControlLeft" "-ControlLeft";
  OClear true;
  OIn "+ControlLeft" "?500ms";
  OTimeout 500 "+ControlLeft";
  OIn "+ControlLeft" "?500ms";
  OTimeout 271 "";
  OIn "+ButtonLeft" "+ControlLeft +ButtonLeft";
  OIn "-ButtonLeft" "-ButtonLeft";
  OIn "+ControlLeft" "?500ms";
  OTimeout 271 "";
  OIn "-ControlLeft" "+ControlLeft -ControlLeft";
  OClear true;
  OIn "+ControlLeft" "?500ms";
  OTimeout 271 "";
  OIn "+ButtonLeft" "+ControlLeft +ButtonLeft";
  OIn "-ButtonLeft" "-ButtonLeft";
  OIn "+ControlLeft" "?500ms";
  OTimeout 271 "";
  OIn "-ControlLeft" "+ControlLeft -ControlLeft";
  OClear true;
  OIn "+ControlLeft" "?500ms";
  OTimeout 271 "";
  OIn "+ButtonLeft" "+ControlLeft +ButtonLeft";
  OIn "-ButtonLeft" "-ButtonLeft";
  OIn "-ControlLeft" "-ControlLeft";
  OClear true] = Pass.
Proof. vm_compute. reflexivity. Qed.

(** test3_Stage.cpp: Not Timeout with modifier *)
Example stage_test_71 : replay "
Shift{A{!500ms}} >> X
" true [
  OIn "+ShiftLeft" "";
  OIn "+A" "?500ms";
  OTimeout 500 "+ShiftLeft +A";
  OIn "-A" "-A";
  OIn "-ShiftLeft" "-ShiftLeft";
  OClear true;
  OIn "+ShiftLeft" "";
  OIn "+A" "?500ms";
  OTimeout 499 "";
  OIn "-A" "+X -X";
  OIn "-ShiftLeft" "";
  OClear true;
  OIn "+ShiftLeft" "";
  OIn "+A" "?500ms";
  OTimeout 500 "+ShiftLeft +A";
  OIn "+A" "?500ms";
  OTimeout 500 "+A";
  OIn "+A" "?500ms";
  OTimeout 499 "";
  OIn "-A" "+A -A";
  OIn "-ShiftLeft" "-ShiftLeft";
  OClear true;
  OIn "+ShiftLeft" "";
  OIn "+A" "?500ms";
  OTimeout 500 "+ShiftLeft +A";
  OIn "+A" "?500ms";
  OTimeout 499 "";
  OIn "-A" "+A -A";
  OIn "+A" "?500ms";
  OTimeout 499 "";
  OIn "-A" "+X -X";
  OIn "+A" "?500ms";
  OTimeout 499 "";
  OIn "-A" "+X -X";
  OIn "-ShiftLeft" "-ShiftLeft";
  OClear true] = Pass.
Proof. vm_compute. reflexivity. Qed.

(** test3_Stage.cpp: Timeout MinMax *)
Example stage_test_72 : replay "
A{500ms !500ms} >> B
" true [
  OIn "+A" "-500ms";
  OTimeout 499 "+A";
  OIn "-A" "-A";
  OIn "+A" "-500ms";
  OTimeout 500 "?500ms";
  OTimeout 499 "";
  OIn "-A" "+B -B";
  OIn "+A" "-500ms";
  OTimeout 500 "?500ms";
  OTimeout 500 "+A ?500ms";
  OTimeout 271 "";
  OIn "-A" "-A"] = Pass.
Proof. vm_compute. reflexivity. Qed.

(** test3_Stage.cpp: Timeout Morse *)
Example stage_test_73 : replay "
e = 500ms       # end
c = !500ms      # continue
s = X{!200ms}   # short
l = X{200ms} !X # long

s c l e         >> A
l c s c s c s e >> B
s c s c s e     >> C
l c s c s e     >> D
s e             >> E

X >> Y
" true [
  OIn "+X" "?200ms";
  OTimeout 100 "";
  OIn "-X" "!500ms";
  OTimeout 123 "";
  OIn "+X" "-200ms";
  OTimeout 200 "";
  OIn "+X" "";
  OIn "+X" "";
  OIn "-X" "+500ms";
  OTimeout 500 "+A -A";
  OClear true;
  OIn "+X" "?200ms";
  OTimeout 200 "";
  OIn "+X" "";
  OIn "+X" "";
  OIn "-X" "!500ms";
  OTimeout 500 "+Y -Y";
  OClear true;
  OIn "+X" "?200ms";
  OTimeout 100 "";
  OIn "-X" "!500ms";
  OTimeout 500 "+E -E";
  OClear true;
  OIn "+X" "?200ms";
  OTimeout 200 "";
  OIn "+X" "";
  OIn "+X" "";
  OIn "-X" "!500ms";
  OTimeout 123 "";
  OIn "+X" "?200ms";
  OTimeout 200 "+Y";
  OIn "+X" "";
  OIn "+X" "";
  OIn "-X" "!500ms -Y";
  OTimeout 500 "+Y -Y";
  OClear true;
  OIn "+X" "?200ms";
  OTimeout 200 "";
  OIn "+X" "";
  OIn "+X" "";
  OIn "-X" "!500ms";
  OTimeout 123 "";
  OIn "+X" "?200ms";
  OTimeout 100 "";
  OIn "-X" "!500ms";
  OTimeout 123 "";
  OIn "+X" "?200ms";
  OTimeout 100 "";
  OIn "-X" "!500ms";
  OTimeout 500 "+D -D";
  OClear true] = Pass.
Proof. vm_compute. reflexivity. Qed.

(** test3_Stage.cpp: Output Timeout *)
Example stage_test_74 : replay "
A >> X 1000ms Y
B >> Z 1000ms
" true [
  OIn "+A" "+X -X +1000ms +Y -Y";
  OIn "-A" "";
  OIn "+B" "+Z -Z +1000ms";
  OIn "-B" ""] = Pass.
Proof. vm_compute. reflexivity. Qed.

(** test3_Stage.cpp: Explicit modifier *)
Example stage_test_75 : replay "
Shift >> Shift
A >> !Shift E Shift{F}                # eF
B >> !Shift E Shift{F} E Shift{F}     # eFeF
C >> !Shift Shift{G} H                # Gh
D >> !Shift Shift{G} H Shift{G} H     # GhGh
" true [
  OIn "+ShiftLeft" "+ShiftLeft";
  OIn "+A" "-ShiftLeft +E -E +ShiftLeft +F -F -ShiftLeft";
  OIn "-A" "";
  OIn "+A" "+E -E +ShiftLeft +F -F -ShiftLeft";
  OIn "-A" "";
  OIn "+R" "+ShiftLeft +R";
  OIn "-R" "-R";
  OIn "-ShiftLeft" "-ShiftLeft";
  OClear true;
  OIn "+ShiftLeft" "+ShiftLeft";
  OIn "+B" "-ShiftLeft +E -E +ShiftLeft +F -F -ShiftLeft +E -E +ShiftLeft +F -F -ShiftLeft";
  OIn "-B" "";
  OIn "+B" "+E -E +ShiftLeft +F -F -ShiftLeft +E -E +ShiftLeft +F -F -ShiftLeft";
  OIn "-B" "";
  OIn "-ShiftLeft" "";
  OClear true;
  OIn "+ShiftLeft" "+ShiftLeft";
  OIn "+C" "+G -G -ShiftLeft +H -H";
  OIn "-C" "";
  OIn "+C" "+ShiftLeft +G -G -ShiftLeft +H -H";
  OIn "-C" "";
  OIn "+R" "+ShiftLeft +R";
  OIn "-R" "-R";
  OIn "-ShiftLeft" "-ShiftLeft";
  OClear true;
  OIn "+ShiftLeft" "+ShiftLeft";
  OIn "+D" "+G -G -ShiftLeft +H -H +ShiftLeft +G -G -ShiftLeft +H -H";
  OIn "-D" "";
  OIn "+D" "+ShiftLeft +G -G -ShiftLeft +H -H +ShiftLeft +G -G -ShiftLeft +H -H";
  OIn "-D" "";
  OIn "-ShiftLeft" "";
  OClear true] = Pass.
Proof. vm_compute. reflexivity. Qed.

(** test3_Stage.cpp: String typing *)
Example stage_test_76 : replay "
Shift >> Shift
A >> ""eF""
B >> ""eFeF""
C >> ""Gh""
D >> ""GhGh""
" true [
  OIn "+ShiftLeft" "+ShiftLeft";
  OIn "+A" "-ShiftLeft +E -E +ShiftLeft +F -F -ShiftLeft";
  OIn "-A" "";
  OIn "+A" "+E -E +ShiftLeft +F -F -ShiftLeft";
  OIn "-A" "";
  OIn "-ShiftLeft" "";
  OClear true;
  OIn "+ShiftLeft" "+ShiftLeft";
  OIn "+B" "-ShiftLeft +E -E +ShiftLeft +F -F -ShiftLeft +E -E +ShiftLeft +F -F -ShiftLeft";
  OIn "-B" "";
  OIn "+B" "+E -E +ShiftLeft +F -F -ShiftLeft +E -E +ShiftLeft +F -F -ShiftLeft";
  OIn "-B" "";
  OIn "-ShiftLeft" "";
  OClear true;
  OIn "+ShiftLeft" "+ShiftLeft";
  OIn "+C" "+G -G -ShiftLeft +H -H";
  OIn "-C" "";
  OIn "+C" "+ShiftLeft +G -G -ShiftLeft +H -H";
  OIn "-C" "";
  OIn "-ShiftLeft" "";
  OClear true;
  OIn "+ShiftLeft" "+ShiftLeft";
  OIn "+D" "+G -G -ShiftLeft +H -H +ShiftLeft +G -G -ShiftLeft +H -H";
  OIn "-D" "";
  OIn "+D" "+ShiftLeft +G -G -ShiftLeft +H -H +ShiftLeft +G -G -ShiftLeft +H -H";
  OIn "-D" "";
  OIn "-ShiftLeft" "";
  OClear true] = Pass.
Proof. vm_compute. reflexivity. Qed.

(** test3_Stage.cpp: String typing already pressed *)
Example stage_test_77 : replay "
A    >> R
A{B} >> ""RS""
" true [
  OIn "+A" "+R";
  OIn "-A" "-R";
  OClear true;
  OIn "+A" "+R";
  OIn "+B" "-R +ShiftLeft +R -R +S -S -ShiftLeft";
  OIn "-B" "";
  OIn "-A" "";
  OClear true] = Pass.
Proof. vm_compute. reflexivity. Qed.

(** test3_Stage.cpp: String typing key repeat *)
Example stage_test_78 : replay "
Shift      >> Shift
A          >> 'X'
Shift{B}   >> 'W'
" true [
  OIn "+A" "+ShiftLeft +X -X -ShiftLeft";
  OIn "+A" "+ShiftLeft +X -X -ShiftLeft";
  OIn "-A" "";
  OClear true;
  OIn "+ShiftLeft" "+ShiftLeft";
  OIn "+ShiftLeft" "+ShiftLeft";
  OIn "+A" "+X -X -ShiftLeft";
  OIn "+A" "+ShiftLeft +X -X -ShiftLeft";
  OIn "-A" "";
  OIn "+C" "+ShiftLeft +C";
  OIn "+C" "+C";
  OIn "-C" "-C";
  OIn "-ShiftLeft" "-ShiftLeft";
  OClear true;
  OIn "+ShiftLeft" "+ShiftLeft";
  OIn "+ShiftLeft" "+ShiftLeft";
  OIn "+B" "+W -W -ShiftLeft";
  OIn "+B" "+ShiftLeft +W -W -ShiftLeft";
  OIn "-B" "";
  OIn "+C" "+ShiftLeft +C";
  OIn "+C" "+C";
  OIn "-C" "-C";
  OIn "-ShiftLeft" "-ShiftLeft";
  OClear true] = Pass.
Proof. vm_compute. reflexivity. Qed.

(** test3_Stage.cpp: NoMightMatch *)
Example stage_test_79 : replay "
? A B >> X
" true [
  OIn "+A" "+A";
  OIn "-A" "-A";
  OClear false;
  OIn "+B" "+X";
  OIn "-B" "-X";
  OClear true;
  OIn "+A" "+A";
  OIn "+B" "+X";
  OIn "-A" "-A";
  OIn "-B" "-X";
  OClear true] = Pass.
Proof. vm_compute. reflexivity. Qed.

(** test3_Stage.cpp: NoMightMatch Modifier *)
Example stage_test_80 : replay "
? A{B} >> X
" true [
  OIn "+A" "+A";
  OIn "-A" "-A";
  OClear true;
  OIn "+B" "+B";
  OIn "-B" "-B";
  OClear true;
  OIn "+A" "+A";
  OIn "+B" "+X";
  OIn "-B" "-X";
  OIn "-A" "-A";
  OClear true;
  OIn "+C" "+C";
  OIn "+A" "+A";
  OIn "+B" "+X";
  OIn "-B" "-X";
  OIn "-A" "-A";
  OIn "-C" "-C";
  OClear true;
  OIn "+C" "+C";
  OIn "+B" "+B";
  OIn "+A" "+A";
  OIn "-B" "-B";
  OIn "-A" "-A";
  OIn "-C" "-C";
  OClear true] = Pass.
Proof. vm_compute. reflexivity. Qed.

(** test3_Stage.cpp: NoMightMatch Sequence *)
Example stage_test_81 : replay "
? A B >> X
? A B C >> Y
? B D >> Z
" true [
  OIn "+B" "+B";
  OIn "-B" "-B";
  OClear false;
  OIn "+D" "+Z";
  OIn "-D" "-Z";
  OClear true;
  OIn "+A" "+A";
  OIn "-A" "-A";
  OClear false;
  OIn "+C" "+C";
  OIn "-C" "-C";
  OClear true;
  OIn "+A" "+A";
  OIn "-A" "-A";
  OClear false;
  OIn "+B" "+X";
  OIn "-B" "-X";
  OClear false;
  OIn "+C" "+Y";
  OIn "-C" "-Y";
  OClear true;
  OIn "+A" "+A";
  OIn "+B" "+X";
  OIn "-A" "-A";
  OIn "-B" "-X";
  OClear false;
  OIn "+D" "+Z";
  OIn "-D" "-Z";
  OClear true;
  OIn "+B" "+B";
  OIn "-B" "-B";
  OClear false;
  OIn "+C" "+C";
  OIn "-C" "-C";
  OClear true;
  OIn "+B" "+B";
  OIn "+A" "+A";
  OIn "-B" "-B";
  OIn "-A" "-A";
  OClear false;
  OIn "+B" "+X";
  OIn "-B" "-X";
  OClear false;
  OIn "+D" "+Z";
  OIn "-D" "-Z";
  OClear true] = Pass.
Proof. vm_compute. reflexivity. Qed.

(** test3_Stage.cpp: NoMightMatch Sequence with initial Not *)
Example stage_test_82 : replay "
? !A B >> X
? !C D E >> Y
" true [
  OIn "+A" "+A";
  OIn "-A" "-A";
  OClear true;
  OIn "+B" "+X";
  OIn "-B" "-X";
  OClear true;
  OIn "+A" "+A";
  OIn "+B" "+B";
  OIn "-B" "-B";
  OIn "-A" "-A";
  OClear true;
  OIn "+C" "+C";
  OIn "-C" "-C";
  OClear true;
  OIn "+D" "+D";
  OIn "-D" "-D";
  OIn "+E" "+Y";
  OIn "-E" "-Y";
  OClear true;
  OIn "+C" "+C";
  OIn "+D" "+D";
  OIn "-C" "-C";
  OIn "-D" "-D";
  OIn "+E" "+Y";
  OIn "-E" "-Y";
  OClear true] = Pass.
Proof. vm_compute. reflexivity. Qed.

(** test3_Stage.cpp: NoMightMatch Sequence with initial Any *)
Example stage_test_83 : replay "
? Any Any X >> Any
" true [
  OIn "+A" "+A";
  OIn "-A" "-A";
  OIn "+B" "+B";
  OIn "-B" "-B";
  OIn "+C" "+C";
  OIn "-C" "-C";
  OIn "+X" "+B +C";
  OIn "-X" "-C -B";
  OIn "+X" "+C +X";
  OIn "-X" "-X -C";
  OIn "+X" "+X +X";
  OIn "-X" "-X"] = Pass.
Proof. vm_compute. reflexivity. Qed.

(** test3_Stage.cpp: NoMightMatch Sequence with Group *)
Example stage_test_84 : replay "
? (A B) C >> X
" true [
  OIn "+A" "+A";
  OIn "-A" "-A";
  OClear true;
  OIn "+B" "+B";
  OIn "-B" "-B";
  OClear true;
  OIn "+B" "+B";
  OIn "+A" "+A";
  OIn "-B" "-B";
  OIn "-A" "-A";
  OIn "+C" "+X";
  OIn "-C" "-X";
  OClear true;
  OIn "+A" "+A";
  OIn "+B" "+B";
  OIn "-B" "-B";
  OIn "-A" "-A";
  OClear false;
  OIn "+D" "+D";
  OIn "-D" "-D";
  OClear true] = Pass.
Proof. vm_compute. reflexivity. Qed.

(** test3_Stage.cpp: NoMightMatch Sequence with String typing *)
Example stage_test_85 : replay "
? (N I O) >> ""fon""
I >> U
N >> F
" true [
  OIn "+N" "+F";
  OIn "+I" "+U";
  OIn "+O" "-F -U +F -F +O -O +N -N";
  OIn "-N" "";
  OIn "-I" "";
  OIn "-O" "";
  OClear true] = Pass.
Proof. vm_compute. reflexivity. Qed.

(** test3_Stage.cpp: String typing input *)
Example stage_test_86 : replay "
""Cat"" >> X
Shift >> Shift
" true [
  OIn "+ShiftLeft" "";
  OIn "+C" "";
  OIn "-C" "";
  OIn "-ShiftLeft" "";
  OIn "+A" "";
  OIn "-A" "";
  OIn "+N" "+ShiftLeft +C -C -ShiftLeft +A -A +N";
  OIn "-N" "-N";
  OClear true;
  OIn "+ShiftLeft" "";
  OIn "+C" "";
  OIn "-C" "";
  OIn "-ShiftLeft" "";
  OIn "+A" "";
  OIn "-A" "";
  OIn "+T" "+X";
  OIn "-T" "-X";
  OClear true] = Pass.
Proof. vm_compute. reflexivity. Qed.

(** test3_Stage.cpp: String typing input #2 *)
Example stage_test_87 : replay "
""Cat"" >> X
" true [
  OIn "+ShiftLeft" "";
  OIn "+C" "";
  OIn "-C" "";
  OIn "-ShiftLeft" "";
  OIn "+A" "";
  OIn "-A" "";
  OIn "+N" "+ShiftLeft +C -C -ShiftLeft +A -A +N";
  OIn "-N" "-N";
  OClear true] = Pass.
Proof. vm_compute. reflexivity. Qed.

(** test3_Stage.cpp: String typing input #3 *)
Example stage_test_88 : replay "
""CAT"" >> X
" true [
  OIn "+C" "+C";
  OIn "-C" "-C";
  OIn "+A" "+A";
  OIn "-A" "-A";
  OIn "+T" "+T";
  OIn "-T" "-T";
  OClear true;
  OIn "+ShiftLeft" "";
  OIn "+C" "";
  OIn "-C" "";
  OIn "+A" "";
  OIn "-A" "";
  OIn "+R" "+ShiftLeft +C -C +A -A +R";
  OIn "-R" "-R";
  OIn "-ShiftLeft" "-ShiftLeft";
  OClear true;
  OIn "+ShiftLeft" "";
  OIn "+C" "";
  OIn "-C" "";
  OIn "-ShiftLeft" "";
  OIn "+A" "+ShiftLeft +C -C -ShiftLeft +A";
  OIn "-A" "-A";
  OIn "+T" "+T";
  OIn "-T" "-T";
  OClear true;
  OIn "+ShiftLeft" "";
  OIn "+C" "";
  OIn "-C" "";
  OIn "+A" "";
  OIn "-A" "";
  OIn "+T" "+X";
  OIn "-T" "-X";
  OIn "-ShiftLeft" "";
  OClear true;
  OIn "+ShiftLeft" "";
  OIn "+C" "";
  OIn "-C" "";
  OIn "-ShiftLeft" "";
  OIn "+ShiftLeft" "";
  OIn "+A" "";
  OIn "-ShiftLeft" "";
  OIn "-A" "";
  OIn "+ShiftLeft" "";
  OIn "+T" "+X";
  OIn "-T" "-X";
  OIn "-ShiftLeft" "";
  OClear true;
  OIn "+ShiftLeft" "";
  OIn "+C" "";
  OIn "-C" "";
  OIn "-ShiftLeft" "";
  OIn "+ShiftLeft" "";
  OIn "-ShiftLeft" "+ShiftLeft +C -C -ShiftLeft +ShiftLeft -ShiftLeft";
  OIn "+ShiftLeft" "";
  OIn "+A" "+ShiftLeft +A";
  OIn "-A" "-A";
  OIn "+T" "+T";
  OIn "-T" "-T";
  OIn "-ShiftLeft" "-ShiftLeft";
  OClear true] = Pass.
Proof. vm_compute. reflexivity. Qed.

(** test3_Stage.cpp: String typing input #4 *)
Example stage_test_89 : replay "
""cat"" >> X
" true [
  OIn "+C" "";
  OIn "-C" "";
  OIn "+A" "";
  OIn "-A" "";
  OIn "+T" "+X";
  OIn "-T" "-X";
  OClear true;
  OIn "+ShiftLeft" "+ShiftLeft";
  OIn "+C" "+C";
  OIn "-C" "-C";
  OIn "+A" "+A";
  OIn "-A" "-A";
  OIn "+T" "+T";
  OIn "-T" "-T";
  OIn "-ShiftLeft" "-ShiftLeft";
  OClear true] = Pass.
Proof. vm_compute. reflexivity. Qed.

(** test3_Stage.cpp: String typing input #5 *)
Example stage_test_90 : replay "
""cAt"" >> X
" true [
  OIn "+C" "";
  OIn "-C" "";
  OIn "+ShiftLeft" "";
  OIn "+A" "";
  OIn "-A" "";
  OIn "-ShiftLeft" "";
  OIn "+T" "+X";
  OIn "-T" "-X";
  OClear true] = Pass.
Proof. vm_compute. reflexivity. Qed.
