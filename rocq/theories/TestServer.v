(** Replay of src/test/test4_Server.cpp on the model (generated from that file).
    These are tests of the model's faithfulness, not proofs. *)
From Coq Require Import String List NArith ZArith.
From Verif Require Import Replay.
Import ListNotations.
Local Open Scope string_scope.

(** test4_Server.cpp: Minimal configuration *)
Example server_test_01 : replay_server "
A >> B
" true [
  TIn "+X" 0 "+X";
  TIn "-X" 0 "-X";
  TIn "+A" 0 "+B";
  TIn "-A" 0 "-B"] = Pass.
Proof. vm_compute. reflexivity. Qed.

(** test4_Server.cpp: Modifier filter and no might match (infinite loop bug) *)
Example server_test_02 : replay_server "
ContextActive >> Virtual1

[modifier = Virtual1]
? X >> A Virtual1
" true [
  TIn "+X" 0 "+A -A";
  TIn "-X" 0 "";
  TIn "+X" 0 "+X";
  TIn "-X" 0 "-X"] = Pass.
Proof. vm_compute. reflexivity. Qed.

(** test4_Server.cpp: Modifier filter toggled in ContextActive *)
Example server_test_03 : replay_server "
X >> Virtual1

[modifier = Virtual1]
ContextActive >> A Virtual1
" true [
  TIn "+X" 0 "+A -A";
  TIn "-X" 0 "";
  TIn "+X" 0 "+A -A";
  TIn "-X" 0 ""] = Pass.
Proof. vm_compute. reflexivity. Qed.

(** test4_Server.cpp: Modifier filter toggled in two ContextActive (prevent infinite loop) *)
Example server_test_04 : replay_server "
C >> Virtual1

[modifier = Virtual1]
ContextActive >> A Virtual1

[modifier = ""!Virtual1""]
ContextActive >> B Virtual1
" false [
  TCtx [ 0; 1; 2 ]%Z "+B -B +A -A +B -B +A -A +B -B +A -A +B -B +A -A +B -B +A -A";
  TIn "+A -A" 0 "+A -A";
  TIn "+B -B" 0 "+B -B";
  TIn "+C" 0 "+B -B +A -A +B -B +A -A +B -B +A -A +B -B +A -A +B -B";
  TIn "+A -A" 0 "+A -A";
  TIn "+B -B" 0 "+B -B"] = Pass.
Proof. vm_compute. reflexivity. Qed.

(** test4_Server.cpp: Trigger Not Timeout *)
Example server_test_05 : replay_server "
ShiftLeft{!200ms} >> B
Shift >> Shift
J >> N
K >> E
" true [
  TIn "+ShiftLeft" 0 "";
  TNotReached "";
  TIn "-ShiftLeft" 0 "+B -B";
  TClear;
  TIn "+ShiftLeft" 0 "";
  TReached "+ShiftLeft";
  TIn "-ShiftLeft" 0 "-ShiftLeft";
  TClear;
  TIn "+ShiftLeft" 0 "";
  TNotReached "";
  TIn "+J" 0 "+ShiftLeft +N";
  TIn "-J" 0 "-N";
  TIn "+K" 0 "+E";
  TIn "-K" 0 "-E";
  TIn "-ShiftLeft" 0 "-ShiftLeft";
  TClear;
  TIn "+A" 0 "+A";
  TIn "+ShiftLeft" 0 "";
  TReached "+ShiftLeft";
  TIn "-A" 0 "-A";
  TIn "+A" 0 "+A";
  TIn "-A" 0 "-A";
  TIn "-ShiftLeft" 0 "-ShiftLeft";
  TClear;
  TIn "+A" 0 "+A";
  TIn "+ShiftLeft" 0 "";
  TNotReached "";
  TIn "-A" 0 "+ShiftLeft -A";
  TIn "+A" 0 "+A";
  TIn "-A" 0 "-A";
  TIn "-ShiftLeft" 0 "-ShiftLeft";
  TClear] = Pass.
Proof. vm_compute. reflexivity. Qed.

(** test4_Server.cpp: ContextActive with fallthrough contexts *)
Example server_test_06 : replay_server "
[modifier = B]
[modifier = A]
ContextActive >> X ^ Y
" true [
  TIn "+A" 0 "+X -X +A";
  TIn "-A" 0 "-A +Y -Y";
  TIn "+B" 0 "+X -X +B";
  TIn "-B" 0 "-B +Y -Y";
  TIn "+A" 0 "+X -X +A";
  TIn "+B" 0 "+B";
  TIn "-B" 0 "-B";
  TIn "-A" 0 "-A +Y -Y";
  TIn "+A" 0 "+X -X +A";
  TIn "+B" 0 "+B";
  TIn "-A" 0 "-A";
  TIn "-B" 0 "-B +Y -Y";
  TIn "+B" 0 "+X -X +B";
  TIn "+A" 0 "+A";
  TIn "-A" 0 "-A";
  TIn "-B" 0 "-B +Y -Y";
  TIn "+B" 0 "+X -X +B";
  TIn "+A" 0 "+A";
  TIn "-B" 0 "-B";
  TIn "-A" 0 "-A +Y -Y"] = Pass.
Proof. vm_compute. reflexivity. Qed.

(** test4_Server.cpp: Not Any with action in ContextActive *)
Example server_test_07 : replay_server "
ContextActive >> $(action1) ^ $(action2)
A             >> S
B             >> !Any T
" true [
  TActions 1;
  TIn "+A" 0 "+S";
  TIn "-A" 0 "-S";
  TIn "+ShiftLeft" 0 "+ShiftLeft";
  TIn "+B" 0 "-ShiftLeft +T";
  TIn "-B" 0 "-T";
  TIn "-ShiftLeft" 0 "";
  TIn "+C" 0 "+C";
  TIn "-C" 0 "-C";
  TActions 0] = Pass.
Proof. vm_compute. reflexivity. Qed.

(** test4_Server.cpp: Device context filter *)
Example server_test_08 : replay_server "
[device = ""DeviceA""]
A >> X

[device-id = ""device_id_b""]
A >> Y

[device = /B/]
B >> R

[device_id = /id_a/]   # deprecated filter name
B >> S
" true [
  TDevices [("DeviceA", "device_id_a"); ("DeviceB", "device_id_b")];
  TIn "+A" 0 "+X";
  TIn "-A" 0 "-X";
  TIn "+A" 1 "+Y";
  TIn "-A" 1 "-Y";
  TIn "+B" 0 "+S";
  TIn "-B" 0 "-S";
  TIn "+B" 1 "+R";
  TIn "-B" 1 "-R"] = Pass.
Proof. vm_compute. reflexivity. Qed.

(** test4_Server.cpp: Multi staging *)
Example server_test_09 : replay_server "
# colemak layout
S >> R
D >> S
F >> T

[stage]
BS = Backspace

[default]
? R A T >> BS BS ""cat""
" true [
  TIn "+S" 0 "+R";
  TIn "+A" 0 "+A";
  TIn "+F" 0 "+Backspace -Backspace +Backspace -Backspace -R -A +C -C +A -A +T -T";
  TIn "-F" 0 "";
  TIn "-A" 0 "";
  TIn "-S" 0 ""] = Pass.
Proof. vm_compute. reflexivity. Qed.

(** test4_Server.cpp: Multi staging - timeout *)
Example server_test_10 : replay_server "
A{500ms} >> B

[stage]
B{500ms} >> C
" true [
  TIn "+A" 0 "";
  TIn "+A" 0 "";
  TNotReached "+A";
  TIn "-A" 0 "-A";
  TIn "+A" 0 "";
  TIn "+A" 0 "";
  TReached "";
  TIn "-A" 0 "+B -B";
  TIn "+A" 0 "";
  TIn "+A" 0 "";
  TReached "";
  TNotReached "+B";
  TIn "-A" 0 "-B";
  TIn "+A" 0 "";
  TIn "+A" 0 "";
  TReached "";
  TReached "+C";
  TIn "-A" 0 "-C"] = Pass.
Proof. vm_compute. reflexivity. Qed.

(** test4_Server.cpp: Multi staging - not timeout *)
Example server_test_11 : replay_server "
A{!500ms} >> B

[stage]
B{!500ms} >> C
" true [
  TIn "+A" 0 "";
  TIn "+A" 0 "";
  TReached "+A";
  TIn "-A" 0 "-A";
  TIn "+A" 0 "";
  TIn "+A" 0 "";
  TNotReached "";
  TIn "-A" 0 "";
  TFlush "+B -B"] = Pass.
Proof. vm_compute. reflexivity. Qed.

(** test4_Server.cpp: Multi staging - virtual key *)
Example server_test_12 : replay_server "
X >> Virtual1
Virtual1{A} >> R

[stage]
Y >> Virtual2
Virtual2{B} >> S
Virtual1{C} >> T
" true [
  TIn "+A" 0 "+A";
  TIn "-A" 0 "-A";
  TIn "+B" 0 "+B";
  TIn "-B" 0 "-B";
  TIn "+C" 0 "+C";
  TIn "-C" 0 "-C";
  TIn "+X" 0 "";
  TIn "-X" 0 "";
  TIn "+A" 0 "+R";
  TIn "-A" 0 "-R";
  TIn "+B" 0 "+B";
  TIn "-B" 0 "-B";
  TIn "+C" 0 "+T";
  TIn "-C" 0 "-T";
  TIn "+Y" 0 "";
  TIn "-Y" 0 "";
  TIn "+A" 0 "+R";
  TIn "-A" 0 "-R";
  TIn "+B" 0 "+S";
  TIn "-B" 0 "-S";
  TIn "+C" 0 "+T";
  TIn "-C" 0 "-T";
  TIn "+X" 0 "";
  TIn "-X" 0 "";
  TIn "+A" 0 "+A";
  TIn "-A" 0 "-A";
  TIn "+B" 0 "+S";
  TIn "-B" 0 "-S";
  TIn "+C" 0 "+C";
  TIn "-C" 0 "-C";
  TIn "+Y" 0 "";
  TIn "-Y" 0 "";
  TIn "+A" 0 "+A";
  TIn "-A" 0 "-A";
  TIn "+B" 0 "+B";
  TIn "-B" 0 "-B";
  TIn "+C" 0 "+C";
  TIn "-C" 0 "-C"] = Pass.
Proof. vm_compute. reflexivity. Qed.

(** test4_Server.cpp: Multi staging - actions *)
Example server_test_13 : replay_server "
F1 >> $(action0)

[stage]
F2 >> $(action1)
" true [
  TIn "+F1" 0 "";
  TIn "-F1" 0 "";
  TActions 1;
  TIn "+F2" 0 "";
  TIn "-F2" 0 "";
  TActions 1] = Pass.
Proof. vm_compute. reflexivity. Qed.

(** test4_Server.cpp: Multi staging - output on release *)
Example server_test_14 : replay_server "
F1 >> A ^ B

[stage]
F2 >> C ^ D
" true [
  TIn "+F1" 0 "+A -A";
  TIn "-F1" 0 "+B -B";
  TIn "+F2" 0 "+C -C";
  TIn "-F2" 0 "+D -D";
  TIn "+F1" 0 "+A -A";
  TIn "+F2" 0 "+C -C";
  TIn "-F1" 0 "+B -B";
  TIn "-F2" 0 "+D -D";
  TIn "+F1" 0 "+A -A";
  TIn "+F2" 0 "+C -C";
  TIn "-F2" 0 "+D -D";
  TIn "-F1" 0 "+B -B";
  TIn "+F2" 0 "+C -C";
  TIn "+F1" 0 "+A -A";
  TIn "-F2" 0 "+D -D";
  TIn "-F1" 0 "+B -B"] = Pass.
Proof. vm_compute. reflexivity. Qed.

(** test4_Server.cpp: Multi staging - ContextActive *)
Example server_test_15 : replay_server "
[title=""App1""]    # 0
ContextActive >> A ^ B

[stage]           # 1

[title=""App2""]    # 2
ContextActive >> C ^ D
" false [
  TCtx [ 1 ]%Z "";
  TCtx [ 0; 1 ]%Z "+A -A";
  TCtx [ 1 ]%Z "+B -B";
  TCtx [ 1; 2 ]%Z "+C -C";
  TCtx [ 0; 1 ]%Z "+A -A +D -D";
  TCtx [ 1 ]%Z "+B -B"] = Pass.
Proof. vm_compute. reflexivity. Qed.

(** test4_Server.cpp: Forwarding after timeout (#113) *)
Example server_test_16 : replay_server "
!W Q{500ms} >> C
(Q W) >> A
Q     >> B
" true [
  TIn "+Q" 0 "";
  TReached "+C";
  TIn "+Q" 0 "";
  TReached "+C";
  TIn "+Q" 0 "";
  TNotReached "";
  TIn "-Q" 0 "-C";
  TClear;
  TIn "+Q" 0 "";
  TNotReached "";
  TIn "-Q" 0 "+B -B";
  TClear;
  TIn "+Q" 0 "";
  TNotReached "";
  TIn "+W" 0 "+A";
  TIn "+W" 0 "+A";
  TIn "-W" 0 "-A";
  TIn "-Q" 0 "";
  TClear;
  TIn "+W" 0 "";
  TIn "+Q" 0 "+A";
  TIn "+Q" 0 "+A";
  TIn "-Q" 0 "";
  TIn "-W" 0 "-A";
  TClear] = Pass.
Proof. vm_compute. reflexivity. Qed.

(** test4_Server.cpp: Another timeout problem (#217) *)
Example server_test_17 : replay_server "
D{!1000ms S} >> Tab
D{K !K} >> X
" true [
  TIn "+D" 0 "";
  TNotReached "";
  TIn "-D" 0 "+D -D";
  TClear;
  TIn "+D" 0 "";
  TNotReached "";
  TIn "+K" 0 "";
  TIn "+K" 0 "";
  TIn "-K" 0 "+X -X";
  TIn "-D" 0 "";
  TClear;
  TIn "+D" 0 "";
  TNotReached "";
  TIn "+K" 0 "";
  TIn "+K" 0 "";
  TIn "-D" 0 "+D +K -D";
  TIn "-K" 0 "-K";
  TClear;
  TIn "+D" 0 "";
  TNotReached "";
  TIn "+S" 0 "+Tab";
  TIn "+S" 0 "+Tab";
  TIn "-S" 0 "-Tab";
  TIn "-D" 0 "";
  TClear;
  TIn "+D" 0 "";
  TReached "";
  TIn "+S" 0 "+D +S";
  TIn "-S" 0 "-S";
  TIn "-D" 0 "-D";
  TClear;
  TIn "+D" 0 "";
  TReached "";
  TIn "+K" 0 "";
  TIn "+K" 0 "";
  TIn "-K" 0 "+X -X";
  TIn "-D" 0 "";
  TClear] = Pass.
Proof. vm_compute. reflexivity. Qed.

(** test4_Server.cpp: Wrong Keyrepeat after timeout (#216) *)
Example server_test_18 : replay_server "
A{!50ms B} >> X
" true [
  TIn "+A" 0 "";
  TReached "+A";
  TIn "-A" 0 "-A";
  TClear;
  TIn "+A" 0 "";
  TNotReached "";
  TIn "-A" 0 "+A -A";
  TClear;
  TIn "+A" 0 "";
  TNotReached "";
  TIn "+C" 0 "+A +C";
  TIn "+C" 0 "+C";
  TIn "-C" 0 "-C";
  TIn "-A" 0 "-A";
  TClear;
  TIn "+A" 0 "";
  TNotReached "";
  TIn "+B" 0 "+X";
  TIn "+B" 0 "+X";
  TIn "-B" 0 "-X";
  TIn "-A" 0 "";
  TClear] = Pass.
Proof. vm_compute. reflexivity. Qed.

(** test4_Server.cpp: Suppress key repeat of all but last device *)
Example server_test_19 : replay_server "
" true [
  TIn "+A" 0 "+A";
  TIn "+A" 0 "+A";
  TIn "+B" 1 "+B";
  TIn "+A" 0 "+A";
  TIn "+B" 1 "+B";
  TIn "+A" 0 "";
  TIn "+B" 1 "+B";
  TIn "+A" 0 "";
  TIn "+B" 1 "+B";
  TIn "-B" 1 "-B";
  TIn "+A" 0 "";
  TIn "+A" 0 "";
  TIn "-A" 0 "-A";
  TClear;
  TIn "+A" 0 "+A";
  TIn "+A" 0 "+A";
  TIn "+ButtonLeft" 1 "+ButtonLeft";
  TIn "-ButtonLeft" 1 "-ButtonLeft";
  TIn "+A" 0 "+A";
  TIn "+A" 0 "+A";
  TIn "-A" 0 "-A";
  TClear] = Pass.
Proof. vm_compute. reflexivity. Qed.

(** test4_Server.cpp: Inconsistent Mouse Button Behavior In Chords (#255) *)
Example server_test_20 : replay_server "
Z{ButtonLeft} >> B
" true [
  TIn "+Z" 0 "";
  TIn "+Z" 0 "";
  TIn "+ButtonLeft" 1 "+B";
  TIn "+Z" 0 "";
  TIn "+Z" 0 "";
  TIn "-ButtonLeft" 1 "-B";
  TIn "+Z" 0 "";
  TIn "+Z" 0 "";
  TIn "-Z" 0 "";
  TClear;
  TIn "+X" 0 "+X";
  TIn "+X" 0 "+X";
  TIn "+Z" 0 "";
  TIn "+Z" 0 "";
  TIn "+ButtonLeft" 1 "+B";
  TIn "+Z" 0 "";
  TIn "+Z" 0 "";
  TIn "-ButtonLeft" 1 "-B";
  TIn "+Z" 0 "";
  TIn "+Z" 0 "";
  TIn "-Z" 0 "";
  TIn "-X" 0 "-X";
  TClear] = Pass.
Proof. vm_compute. reflexivity. Qed.

(** test4_Server.cpp: Releasing after forwarding (#244) *)
Example server_test_21 : replay_server "
@forward-modifiers Shift

A{S{D}} >> Space
" true [
  TIn "+ShiftLeft" 0 "+ShiftLeft";
  TIn "+A" 0 "";
  TIn "+A" 0 "";
  TIn "-A" 0 "+A -A";
  TIn "-ShiftLeft" 0 "-ShiftLeft";
  TClear;
  TIn "+ShiftLeft" 0 "+ShiftLeft";
  TIn "+A" 0 "";
  TIn "+A" 0 "";
  TIn "-ShiftLeft" 0 "+A -ShiftLeft";
  TIn "-A" 0 "-A";
  TClear] = Pass.
Proof. vm_compute. reflexivity. Qed.
