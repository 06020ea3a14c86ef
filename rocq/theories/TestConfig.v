(** Replay of src/test/test0_ParseKeySequence.cpp, test1_ParseConfig.cpp and
    test2_MatchKeySequence.cpp on the model (generated from these files).  These are
    tests of the model's faithfulness, not proofs. *)
From Coq Require Import String List NArith ZArith.
From Verif Require Import Base Key Match ParseSeq Replay.
Import ListNotations.
Local Open Scope string_scope.
Local Open Scope N_scope.

Example parse_test_001 : test_input "" = PErr.
Proof. vm_compute. reflexivity. Qed.
Example parse_test_002 : test_input "A" = POk [ev0 0x1e Down; ev0 0x1e UpAsync].
Proof. vm_compute. reflexivity. Qed.
Example parse_test_003 : test_input "A B" = POk [ev0 0x1e Down; ev0 0x1e UpAsync; ev0 0x30 Down; ev0 0x30 UpAsync].
Proof. vm_compute. reflexivity. Qed.
Example parse_test_004 : test_input "A{B}" = POk [ev0 0x1e Down; ev0 0x30 Down; ev0 0x30 UpAsync; ev0 0x1e UpAsync].
Proof. vm_compute. reflexivity. Qed.
Example parse_test_005 : test_input "{B}" = PErr.
Proof. vm_compute. reflexivity. Qed.
Example parse_test_006 : test_input "A{B{C}}" = POk [ev0 0x1e Down; ev0 0x30 Down; ev0 0x2e Down; ev0 0x2e UpAsync; ev0 0x30 UpAsync; ev0 0x1e UpAsync].
Proof. vm_compute. reflexivity. Qed.
Example parse_test_007 : test_input "(A B)" = POk [ev0 0x1e DownAsync; ev0 0x30 DownAsync; ev0 0x1e Down; ev0 0x30 Down; ev0 0x1e UpAsync; ev0 0x30 UpAsync].
Proof. vm_compute. reflexivity. Qed.
Example parse_test_008 : test_input "(A B{C})" = PErr.
Proof. vm_compute. reflexivity. Qed.
Example parse_test_009 : test_input "A(B C)" = POk [ev0 0x1e Down; ev0 0x1e UpAsync; ev0 0x30 DownAsync; ev0 0x2e DownAsync; ev0 0x30 Down; ev0 0x2e Down; ev0 0x30 UpAsync; ev0 0x2e UpAsync].
Proof. vm_compute. reflexivity. Qed.
Example parse_test_010 : test_input "A{B C}" = POk [ev0 0x1e Down; ev0 0x30 Down; ev0 0x30 UpAsync; ev0 0x2e Down; ev0 0x2e UpAsync; ev0 0x1e UpAsync].
Proof. vm_compute. reflexivity. Qed.
Example parse_test_011 : test_input "A{(B C)}" = POk [ev0 0x1e Down; ev0 0x30 DownAsync; ev0 0x2e DownAsync; ev0 0x30 Down; ev0 0x2e Down; ev0 0x30 UpAsync; ev0 0x2e UpAsync; ev0 0x1e UpAsync].
Proof. vm_compute. reflexivity. Qed.
Example parse_test_012 : test_input "A{B{C} D{E}}" = POk [ev0 0x1e Down; ev0 0x30 Down; ev0 0x2e Down; ev0 0x2e UpAsync; ev0 0x30 UpAsync; ev0 0x20 Down; ev0 0x12 Down; ev0 0x12 UpAsync; ev0 0x20 UpAsync; ev0 0x1e UpAsync].
Proof. vm_compute. reflexivity. Qed.
Example parse_test_013 : test_input "A B{C} D" = POk [ev0 0x1e Down; ev0 0x1e UpAsync; ev0 0x30 Down; ev0 0x2e Down; ev0 0x2e UpAsync; ev0 0x30 UpAsync; ev0 0x20 Down; ev0 0x20 UpAsync].
Proof. vm_compute. reflexivity. Qed.
Example parse_test_014 : test_input "A{(B C) D}" = POk [ev0 0x1e Down; ev0 0x30 DownAsync; ev0 0x2e DownAsync; ev0 0x30 Down; ev0 0x2e Down; ev0 0x30 UpAsync; ev0 0x2e UpAsync; ev0 0x20 Down; ev0 0x20 UpAsync; ev0 0x1e UpAsync].
Proof. vm_compute. reflexivity. Qed.
Example parse_test_015 : test_input "(A B){C D}" = POk [ev0 0x1e DownAsync; ev0 0x30 DownAsync; ev0 0x1e Down; ev0 0x30 Down; ev0 0x2e Down; ev0 0x2e UpAsync; ev0 0x20 Down; ev0 0x20 UpAsync; ev0 0x30 UpAsync; ev0 0x1e UpAsync].
Proof. vm_compute. reflexivity. Qed.
Example parse_test_016 : test_input "A !B" = POk [ev0 0x1e Down; ev0 0x1e UpAsync; ev0 0x30 Not].
Proof. vm_compute. reflexivity. Qed.
Example parse_test_017 : test_input "A !A B !B" = POk [ev0 0x1e Down; ev0 0x1e Up; ev0 0x30 Down; ev0 0x30 Up].
Proof. vm_compute. reflexivity. Qed.
Example parse_test_018 : test_input "A B !A !B" = POk [ev0 0x1e Down; ev0 0x1e UpAsync; ev0 0x30 Down; ev0 0x30 UpAsync; ev0 0x1e Up; ev0 0x30 Up].
Proof. vm_compute. reflexivity. Qed.
Example parse_test_019 : test_input "A !A B" = POk [ev0 0x1e Down; ev0 0x1e Up; ev0 0x30 Down; ev0 0x30 UpAsync].
Proof. vm_compute. reflexivity. Qed.
Example parse_test_020 : test_input "!A B A !A" = POk [ev0 0x1e Not; ev0 0x30 Down; ev0 0x30 UpAsync; ev0 0x1e Down; ev0 0x1e Up].
Proof. vm_compute. reflexivity. Qed.
Example parse_test_021 : test_input "A{B !B}" = POk [ev0 0x1e Down; ev0 0x30 Down; ev0 0x30 Up; ev0 0x1e UpAsync].
Proof. vm_compute. reflexivity. Qed.
Example parse_test_022 : test_input "A{B !B} !A" = POk [ev0 0x1e Down; ev0 0x30 Down; ev0 0x30 Up; ev0 0x1e Up].
Proof. vm_compute. reflexivity. Qed.
Example parse_test_023 : test_input "A{B} !A" = POk [ev0 0x1e Down; ev0 0x30 Down; ev0 0x30 UpAsync; ev0 0x1e Up].
Proof. vm_compute. reflexivity. Qed.
Example parse_test_024 : test_input "!" = PErr.
Proof. vm_compute. reflexivity. Qed.
Example parse_test_025 : test_input "!A" = PErr.
Proof. vm_compute. reflexivity. Qed.
Example parse_test_026 : test_input "!(A B)" = PErr.
Proof. vm_compute. reflexivity. Qed.
Example parse_test_027 : test_input "!A{B}" = PErr.
Proof. vm_compute. reflexivity. Qed.
Example parse_test_028 : test_input "A{!B}" = PErr.
Proof. vm_compute. reflexivity. Qed.
Example parse_test_029 : test_input "!A 100ms" = PErr.
Proof. vm_compute. reflexivity. Qed.
Example parse_test_030 : test_input "A ^ B" = PErr.
Proof. vm_compute. reflexivity. Qed.
Example parse_test_031 : test_input "? A B" = POk [ev0 0 NoMightMatch; ev0 0x1e Down; ev0 0x1e UpAsync; ev0 0x30 Down].
Proof. vm_compute. reflexivity. Qed.
Example parse_test_032 : test_input "?" = PErr.
Proof. vm_compute. reflexivity. Qed.
Example parse_test_033 : test_input "? ? A B" = PErr.
Proof. vm_compute. reflexivity. Qed.
Example parse_test_034 : test_input "A ? B" = PErr.
Proof. vm_compute. reflexivity. Qed.
Example parse_test_035 : test_input "A ?" = PErr.
Proof. vm_compute. reflexivity. Qed.
Example parse_test_036 : test_input "(?A)" = PErr.
Proof. vm_compute. reflexivity. Qed.
Example parse_test_037 : test_input "? A{100ms}" = PErr.
Proof. vm_compute. reflexivity. Qed.
Example parse_test_038 : test_input "? Virtual1{A}" = PErr.
Proof. vm_compute. reflexivity. Qed.
Example parse_test_039 : test_input "!Any" = PErr.
Proof. vm_compute. reflexivity. Qed.
Example parse_test_040 : (match test_input "Any" with POk _ => true | _ => false end) = true.
Proof. vm_compute. reflexivity. Qed.
Example parse_test_041 : (match test_input "A Any" with POk _ => true | _ => false end) = true.
Proof. vm_compute. reflexivity. Qed.
Example parse_test_042 : (match test_input "A !Any B" with POk _ => true | _ => false end) = true.
Proof. vm_compute. reflexivity. Qed.
Example parse_test_043 : (match test_input "? Any A" with POk _ => true | _ => false end) = true.
Proof. vm_compute. reflexivity. Qed.
Example parse_test_044 : (match test_input "? !B Any A" with POk _ => true | _ => false end) = true.
Proof. vm_compute. reflexivity. Qed.
Example parse_test_045 : (match test_input "? A Any" with POk _ => true | _ => false end) = true.
Proof. vm_compute. reflexivity. Qed.
Example parse_test_046 : (match test_input "? A !Any B" with POk _ => true | _ => false end) = true.
Proof. vm_compute. reflexivity. Qed.
Example parse_test_047 : test_input "Virtual0" = POk [ev0 0xF100 Down; ev0 0xF100 UpAsync].
Proof. vm_compute. reflexivity. Qed.
Example parse_test_048 : test_input "!Virtual0 A" = POk [ev0 0xF100 Not; ev0 0x1e Down; ev0 0x1e UpAsync].
Proof. vm_compute. reflexivity. Qed.
Example parse_test_049 : test_input "A 1000ms" = POk [ev0 0x1e Down; ev0 0x1e UpAsync; Ev k_timeout Down 1000].
Proof. vm_compute. reflexivity. Qed.
Example parse_test_050 : test_input "A !A 1000ms" = POk [ev0 0x1e Down; ev0 0x1e Up; Ev k_timeout Down 1000].
Proof. vm_compute. reflexivity. Qed.
Example parse_test_051 : test_input "A{1000ms}" = POk [ev0 0x1e Down; Ev k_timeout Up 1000; ev0 0x1e UpAsync].
Proof. vm_compute. reflexivity. Qed.
Example parse_test_052 : test_input "(A B){1000ms}" = POk [ev0 0x1e DownAsync; ev0 0x30 DownAsync; ev0 0x1e Down; ev0 0x30 Down; Ev k_timeout Up 1000; ev0 0x30 UpAsync; ev0 0x1e UpAsync].
Proof. vm_compute. reflexivity. Qed.
Example parse_test_053 : test_input "A 1000ms B" = POk [ev0 0x1e Down; ev0 0x1e UpAsync; Ev k_timeout Down 1000; ev0 0x30 Down; ev0 0x30 UpAsync].
Proof. vm_compute. reflexivity. Qed.
Example parse_test_054 : test_input "A !A 1000ms B" = POk [ev0 0x1e Down; ev0 0x1e Up; Ev k_timeout Down 1000; ev0 0x30 Down; ev0 0x30 UpAsync].
Proof. vm_compute. reflexivity. Qed.
Example parse_test_055 : test_input "A{1000ms B}" = POk [ev0 0x1e Down; Ev k_timeout Up 1000; ev0 0x30 Down; ev0 0x30 UpAsync; ev0 0x1e UpAsync].
Proof. vm_compute. reflexivity. Qed.
Example parse_test_056 : (match test_input "A 10000000ms" with POk _ => true | _ => false end) = true.
Proof. vm_compute. reflexivity. Qed.
Example parse_test_057 : test_input "1000ms A" = PErr.
Proof. vm_compute. reflexivity. Qed.
Example parse_test_058 : test_input "(A 1000ms)" = PErr.
Proof. vm_compute. reflexivity. Qed.
Example parse_test_059 : test_input "(A !1000ms)" = PErr.
Proof. vm_compute. reflexivity. Qed.
Example parse_test_060 : test_input "A !1000ms" = POk [ev0 0x1e Down; ev0 0x1e UpAsync; Ev k_timeout Not 1000].
Proof. vm_compute. reflexivity. Qed.
Example parse_test_061 : test_input "A !A !1000ms" = POk [ev0 0x1e Down; ev0 0x1e Up; Ev k_timeout Not 1000].
Proof. vm_compute. reflexivity. Qed.
Example parse_test_062 : test_input "A{!1000ms}" = POk [ev0 0x1e Down; Ev k_timeout NotTimeoutUpDown 1000; ev0 0x1e UpAsync; ev0 0x1e Up].
Proof. vm_compute. reflexivity. Qed.
Example parse_test_063 : test_input "(A B){!1000ms}" = POk [ev0 0x1e DownAsync; ev0 0x30 DownAsync; ev0 0x1e Down; ev0 0x30 Down; Ev k_timeout NotTimeoutUpDown 1000; ev0 0x30 UpAsync; ev0 0x1e UpAsync; ev0 0x30 Up; ev0 0x1e Up].
Proof. vm_compute. reflexivity. Qed.
Example parse_test_064 : test_input "A{B{!1000ms}}" = POk [ev0 0x1e Down; ev0 0x30 Down; Ev k_timeout NotTimeoutUpDown 1000; ev0 0x30 UpAsync; ev0 0x30 Up; ev0 0x1e UpAsync].
Proof. vm_compute. reflexivity. Qed.
Example parse_test_065 : test_input "A{B !1000ms}" = POk [ev0 0x1e Down; ev0 0x30 Down; ev0 0x30 UpAsync; Ev k_timeout NotTimeoutUpDown 1000; ev0 0x1e UpAsync; ev0 0x1e Up].
Proof. vm_compute. reflexivity. Qed.
Example parse_test_066 : test_input "A{1000ms !1000ms}" = POk [ev0 0x1e Down; Ev k_timeout Up 1000; Ev k_timeout NotTimeoutUpDown 1000; ev0 0x1e UpAsync; ev0 0x1e Up].
Proof. vm_compute. reflexivity. Qed.
Example parse_test_067 : test_input "(A B){1000ms !1000ms}" = POk [ev0 0x1e DownAsync; ev0 0x30 DownAsync; ev0 0x1e Down; ev0 0x30 Down; Ev k_timeout Up 1000; Ev k_timeout NotTimeoutUpDown 1000; ev0 0x30 UpAsync; ev0 0x1e UpAsync; ev0 0x30 Up; ev0 0x1e Up].
Proof. vm_compute. reflexivity. Qed.
Example parse_test_068 : test_input "A{1000ms 100ms !1000ms !100ms !10ms 1000ms}" = POk [ev0 0x1e Down; Ev k_timeout Up 1100; Ev k_timeout NotTimeoutUpDown 1110; Ev k_timeout Up 1000; ev0 0x1e UpAsync].
Proof. vm_compute. reflexivity. Qed.
Example parse_test_069 : test_output "" = POk [].
Proof. vm_compute. reflexivity. Qed.
Example parse_test_070 : test_output "A" = POk [ev0 0x1e Down].
Proof. vm_compute. reflexivity. Qed.
Example parse_test_071 : test_output "A B" = POk [ev0 0x1e Down; ev0 0x1e Up; ev0 0x30 Down; ev0 0x30 Up].
Proof. vm_compute. reflexivity. Qed.
Example parse_test_072 : test_output "A{B}" = POk [ev0 0x1e Down; ev0 0x30 Down; ev0 0x30 Up; ev0 0x1e Up].
Proof. vm_compute. reflexivity. Qed.
Example parse_test_073 : test_output "{B}" = PErr.
Proof. vm_compute. reflexivity. Qed.
Example parse_test_074 : test_output "(A B)" = POk [ev0 0x1e Down; ev0 0x30 Down].
Proof. vm_compute. reflexivity. Qed.
Example parse_test_075 : test_output "(A B C)" = POk [ev0 0x1e Down; ev0 0x30 Down; ev0 0x2e Down].
Proof. vm_compute. reflexivity. Qed.
Example parse_test_076 : test_output "A(B C)" = POk [ev0 0x1e Down; ev0 0x1e Up; ev0 0x30 Down; ev0 0x2e Down; ev0 0x30 Up; ev0 0x2e Up].
Proof. vm_compute. reflexivity. Qed.
Example parse_test_077 : test_output "A{B C}" = POk [ev0 0x1e Down; ev0 0x30 Down; ev0 0x30 Up; ev0 0x2e Down; ev0 0x2e Up; ev0 0x1e Up].
Proof. vm_compute. reflexivity. Qed.
Example parse_test_078 : test_output "A{(B C)}" = POk [ev0 0x1e Down; ev0 0x30 Down; ev0 0x2e Down; ev0 0x30 Up; ev0 0x2e Up; ev0 0x1e Up].
Proof. vm_compute. reflexivity. Qed.
Example parse_test_079 : test_output "(A B){C D}" = POk [ev0 0x1e Down; ev0 0x30 Down; ev0 0x2e Down; ev0 0x2e Up; ev0 0x20 Down; ev0 0x20 Up; ev0 0x30 Up; ev0 0x1e Up].
Proof. vm_compute. reflexivity. Qed.
Example parse_test_080 : test_output "A{B{C}}" = POk [ev0 0x1e Down; ev0 0x30 Down; ev0 0x2e Down; ev0 0x2e Up; ev0 0x30 Up; ev0 0x1e Up].
Proof. vm_compute. reflexivity. Qed.
Example parse_test_081 : test_output "!A" = POk [ev0 0x1e Not].
Proof. vm_compute. reflexivity. Qed.
Example parse_test_082 : test_output "A !A" = POk [ev0 0x1e Down; ev0 0x1e Not].
Proof. vm_compute. reflexivity. Qed.
Example parse_test_083 : test_output "A{B !B}" = POk [ev0 0x1e Down; ev0 0x30 Down; ev0 0x30 Not; ev0 0x1e Up].
Proof. vm_compute. reflexivity. Qed.
Example parse_test_084 : test_output "A ^ B" = POk [ev0 0x1e Down; ev0 0x1e Up; ev0 0 OutputOnRelease; ev0 0x30 Down; ev0 0x30 Up].
Proof. vm_compute. reflexivity. Qed.
Example parse_test_085 : test_output "^ A B" = POk [ev0 0 OutputOnRelease; ev0 0x1e Down; ev0 0x1e Up; ev0 0x30 Down; ev0 0x30 Up].
Proof. vm_compute. reflexivity. Qed.
Example parse_test_086 : test_output "A B ^" = POk [ev0 0x1e Down; ev0 0x1e Up; ev0 0x30 Down; ev0 0x30 Up; ev0 0 OutputOnRelease].
Proof. vm_compute. reflexivity. Qed.
Example parse_test_087 : test_output "^" = POk [ev0 0 OutputOnRelease].
Proof. vm_compute. reflexivity. Qed.
Example parse_test_088 : test_output "A ^ B ^ C" = PErr.
Proof. vm_compute. reflexivity. Qed.
Example parse_test_089 : test_output "^ A ^ B" = PErr.
Proof. vm_compute. reflexivity. Qed.
Example parse_test_090 : test_output "(A ^ B)" = PErr.
Proof. vm_compute. reflexivity. Qed.
Example parse_test_091 : test_output "A{^ B}" = PErr.
Proof. vm_compute. reflexivity. Qed.
Example parse_test_092 : test_output "A^{B}" = PErr.
Proof. vm_compute. reflexivity. Qed.
Example parse_test_093 : test_output "? A B" = PErr.
Proof. vm_compute. reflexivity. Qed.
Example parse_test_094 : test_output "Any" = POk [ev0 0xF000 Down].
Proof. vm_compute. reflexivity. Qed.
Example parse_test_095 : test_output "!Any" = POk [ev0 0xF000 Not].
Proof. vm_compute. reflexivity. Qed.
Example parse_test_096 : test_output "Virtual0" = POk [ev0 0xF100 Down].
Proof. vm_compute. reflexivity. Qed.
Example parse_test_097 : test_output "!Virtual0" = POk [ev0 0xF100 Not].
Proof. vm_compute. reflexivity. Qed.
Example parse_test_098 : (match test_output "Virtual255" with POk _ => true | _ => false end) = true.
Proof. vm_compute. reflexivity. Qed.
Example parse_test_099 : test_output "Virtual256" = PErr.
Proof. vm_compute. reflexivity. Qed.
Example parse_test_100 : test_output "A 1000ms" = POk [ev0 0x1e Down; ev0 0x1e Up; Ev k_timeout Down 1000].
Proof. vm_compute. reflexivity. Qed.
Example parse_test_101 : test_output "A{1000ms}" = POk [ev0 0x1e Down; Ev k_timeout Down 1000; ev0 0x1e Up].
Proof. vm_compute. reflexivity. Qed.
Example parse_test_102 : test_output "A 1000ms B" = POk [ev0 0x1e Down; ev0 0x1e Up; Ev k_timeout Down 1000; ev0 0x30 Down; ev0 0x30 Up].
Proof. vm_compute. reflexivity. Qed.
Example parse_test_103 : test_output "A{1000ms B}" = POk [ev0 0x1e Down; Ev k_timeout Down 1000; ev0 0x30 Down; ev0 0x30 Up; ev0 0x1e Up].
Proof. vm_compute. reflexivity. Qed.
Example parse_test_104 : test_output "1000ms A" = POk [Ev k_timeout Down 1000; ev0 0x1e Down].
Proof. vm_compute. reflexivity. Qed.
Example parse_test_105 : test_output "(A B){1000ms}" = POk [ev0 0x1e Down; ev0 0x30 Down; Ev k_timeout Down 1000; ev0 0x30 Up; ev0 0x1e Up].
Proof. vm_compute. reflexivity. Qed.
Example parse_test_106 : (match test_output "A 10000000ms" with POk _ => true | _ => false end) = true.
Proof. vm_compute. reflexivity. Qed.
Example parse_test_107 : test_output "(A !1000ms)" = PErr.
Proof. vm_compute. reflexivity. Qed.
Example parse_test_108 : test_output "A !1000ms" = PErr.
Proof. vm_compute. reflexivity. Qed.
Example parse_test_109 : test_output "A{!1000ms}" = PErr.
Proof. vm_compute. reflexivity. Qed.
Example parse_test_110 : test_output "A{1000ms !1000ms}" = PErr.
Proof. vm_compute. reflexivity. Qed.
Example parse_test_111 : test_output "A{1000ms 100ms 1000ms}" = POk [ev0 0x1e Down; Ev k_timeout Down 2100; ev0 0x1e Up].
Proof. vm_compute. reflexivity. Qed.
Example parse_test_112 : test_output "(Digit1 2 KeyA B Any)" = POk [ev0 0x2 Down; ev0 0x3 Down; ev0 0x1e Down; ev0 0x30 Down; ev0 0xF000 Down].
Proof. vm_compute. reflexivity. Qed.
Example parse_test_113 : test_output "(OSLeft MetaLeft OSRight MetaRight)" = POk [ev0 0x7d Down; ev0 0x7d Down; ev0 0x7e Down; ev0 0x7e Down].
Proof. vm_compute. reflexivity. Qed.
Example parse_test_114 : test_output "(Virtual0 Virtual255)" = POk [ev0 0xF100 Down; ev0 0xF1FF Down].
Proof. vm_compute. reflexivity. Qed.
Example parse_test_115 : test_output "Virtual256" = PErr.
Proof. vm_compute. reflexivity. Qed.
Example parse_test_116 : test_output "Key1" = PErr.
Proof. vm_compute. reflexivity. Qed.
Example parse_test_117 : test_output "DigitA" = PErr.
Proof. vm_compute. reflexivity. Qed.
Example parse_test_118 : test_output "1ms (0 9 F 01 61439 0x1 0XefFF)" = POk [Ev k_timeout Down 1; ev0 0xb Down; ev0 0xa Down; ev0 0x21 Down; ev0 1 Down; ev0 61439 Down; ev0 0x1 Down; ev0 0xEFFF Down].
Proof. vm_compute. reflexivity. Qed.
Example parse_test_119 : test_output "00" = PErr.
Proof. vm_compute. reflexivity. Qed.
Example parse_test_120 : test_output "0F" = PErr.
Proof. vm_compute. reflexivity. Qed.
Example parse_test_121 : test_output "-01" = PErr.
Proof. vm_compute. reflexivity. Qed.
Example parse_test_122 : test_output "61440" = PErr.
Proof. vm_compute. reflexivity. Qed.
Example parse_test_123 : test_output "0xF000" = PErr.
Proof. vm_compute. reflexivity. Qed.
Example parse_test_124 : test_output "01z" = PErr.
Proof. vm_compute. reflexivity. Qed.
Example parse_test_125 : test_output "0xEFz" = PErr.
Proof. vm_compute. reflexivity. Qed.
Example parse_test_126 : test_output "0x1ms" = PErr.
Proof. vm_compute. reflexivity. Qed.
Example parse_test_127 : test_output "0xEFms" = PErr.
Proof. vm_compute. reflexivity. Qed.
Example parse_test_128 : test_input "'a'" = POk [ev0 0xF300 Not; ev0 0x38 Not; ev0 0x64 Not; ev0 0xF301 Not; ev0 0x1e Down; ev0 0x1e UpAsync].
Proof. vm_compute. reflexivity. Qed.
Example parse_test_129 : test_input "A 'b' C" = POk [ev0 0x1e Down; ev0 0x1e UpAsync; ev0 0xF300 Not; ev0 0x38 Not; ev0 0x64 Not; ev0 0xF301 Not; ev0 0x30 Down; ev0 0x30 UpAsync; ev0 0x2e Down; ev0 0x2e UpAsync].
Proof. vm_compute. reflexivity. Qed.
Example parse_test_130 : test_input "'Cat'" = POk [ev0 0xF300 DownAsync; ev0 0xF300 Down; ev0 0x38 Not; ev0 0x64 Not; ev0 0xF301 Not; ev0 0x2e Down; ev0 0x2e UpAsync; ev0 0xF300 Up; ev0 0x1e Down; ev0 0x1e UpAsync; ev0 0x14 Down; ev0 0x14 UpAsync].
Proof. vm_compute. reflexivity. Qed.
Example parse_test_131 : test_input "'cAt'" = POk [ev0 0xF300 Not; ev0 0x38 Not; ev0 0x64 Not; ev0 0xF301 Not; ev0 0x2e Down; ev0 0x2e UpAsync; ev0 0xF300 DownAsync; ev0 0xF300 Down; ev0 0x1e Down; ev0 0x1e UpAsync; ev0 0xF300 Up; ev0 0x14 Down; ev0 0x14 UpAsync].
Proof. vm_compute. reflexivity. Qed.
Example parse_test_132 : test_input "'CAP'" = POk [ev0 0xF300 DownAsync; ev0 0xF300 Down; ev0 0x38 Not; ev0 0x64 Not; ev0 0xF301 Not; ev0 0x2e Down; ev0 0x2e UpAsync; ev0 0xF300 UpAsync; ev0 0xF300 DownAsync; ev0 0xF300 Down; ev0 0x1e Down; ev0 0x1e UpAsync; ev0 0xF300 UpAsync; ev0 0xF300 DownAsync; ev0 0xF300 Down; ev0 0x19 Down; ev0 0x19 UpAsync; ev0 0xF300 UpAsync].
Proof. vm_compute. reflexivity. Qed.
Example parse_test_133 : test_input "A{'b'}" = POk [ev0 0x1e Down; ev0 0x30 Down; ev0 0x30 UpAsync; ev0 0x1e UpAsync].
Proof. vm_compute. reflexivity. Qed.
Example parse_test_134 : test_input "A{'Bb'}" = POk [ev0 0x1e Down; ev0 0x30 Down; ev0 0x30 UpAsync; ev0 0x30 Down; ev0 0x30 UpAsync; ev0 0x1e UpAsync].
Proof. vm_compute. reflexivity. Qed.
Example parse_test_135 : test_input "(A 'a')" = PErr.
Proof. vm_compute. reflexivity. Qed.
Example parse_test_136 : test_input "('a' B)" = PErr.
Proof. vm_compute. reflexivity. Qed.
Example parse_test_137 : test_input "'a'{B}" = PErr.
Proof. vm_compute. reflexivity. Qed.
Example parse_test_138 : test_output "'a'" = POk [ev0 0xF000 Not; ev0 0x1e Down].
Proof. vm_compute. reflexivity. Qed.
Example parse_test_139 : test_output "A 'b' C" = POk [ev0 0x1e Down; ev0 0x1e Up; ev0 0xF000 Not; ev0 0x30 Down; ev0 0x30 Up; ev0 0x2e Down; ev0 0x2e Up].
Proof. vm_compute. reflexivity. Qed.
Example parse_test_140 : test_output """ab""" = POk [ev0 0xF000 Not; ev0 0x1e Down; ev0 0x1e Up; ev0 0x30 Down; ev0 0x30 Up].
Proof. vm_compute. reflexivity. Qed.
Example parse_test_141 : test_output "'A'" = POk [ev0 0xF000 Not; ev0 0xF300 Down; ev0 0x1e Down; ev0 0x1e Up; ev0 0xF300 Up].
Proof. vm_compute. reflexivity. Qed.
Example parse_test_142 : test_output "A 'B' C" = POk [ev0 0x1e Down; ev0 0x1e Up; ev0 0xF000 Not; ev0 0xF300 Down; ev0 0x30 Down; ev0 0x30 Up; ev0 0xF300 Up; ev0 0x2e Down; ev0 0x2e Up].
Proof. vm_compute. reflexivity. Qed.
Example parse_test_143 : test_output """AB""" = POk [ev0 0xF000 Not; ev0 0xF300 Down; ev0 0x1e Down; ev0 0x1e Up; ev0 0x30 Down; ev0 0x30 Up; ev0 0xF300 Up].
Proof. vm_compute. reflexivity. Qed.
Example parse_test_144 : test_output "'AbC'" = POk [ev0 0xF000 Not; ev0 0xF300 Down; ev0 0x1e Down; ev0 0x1e Up; ev0 0xF300 Up; ev0 0x30 Down; ev0 0x30 Up; ev0 0xF300 Down; ev0 0x2e Down; ev0 0x2e Up; ev0 0xF300 Up].
Proof. vm_compute. reflexivity. Qed.
Example parse_test_145 : test_output "'aB'" = POk [ev0 0xF000 Not; ev0 0x1e Down; ev0 0x1e Up; ev0 0xF300 Down; ev0 0x30 Down; ev0 0x30 Up; ev0 0xF300 Up].
Proof. vm_compute. reflexivity. Qed.
Example parse_test_146 : test_output "A{'b'}" = POk [ev0 0x1e Down; ev0 0x30 Down; ev0 0x30 Up; ev0 0x1e Up].
Proof. vm_compute. reflexivity. Qed.
Example parse_test_147 : test_output "A{'Bc'}" = POk [ev0 0x1e Down; ev0 0xF300 Down; ev0 0x30 Down; ev0 0x30 Up; ev0 0xF300 Up; ev0 0x2e Down; ev0 0x2e Up; ev0 0x1e Up].
Proof. vm_compute. reflexivity. Qed.
Example parse_test_148 : test_output "'A" = PErr.
Proof. vm_compute. reflexivity. Qed.
Example parse_test_149 : test_output "A'" = PErr.
Proof. vm_compute. reflexivity. Qed.
Example parse_test_150 : test_output "'A""" = PErr.
Proof. vm_compute. reflexivity. Qed.
Example parse_test_151 : test_output """A'" = PErr.
Proof. vm_compute. reflexivity. Qed.
Example parse_test_152 : test_output "(A 'B')" = PErr.
Proof. vm_compute. reflexivity. Qed.
Example parse_test_153 : test_output "'B'{A}" = PErr.
Proof. vm_compute. reflexivity. Qed.
Example parse_test_154 : test_output "('B' A)" = PErr.
Proof. vm_compute. reflexivity. Qed.
Example parse_test_155 : test_output "!'B'" = PErr.
Proof. vm_compute. reflexivity. Qed.
Example parse_test_156 : test_input "ContextActive" = POk [ev0 0xF002 Down].
Proof. vm_compute. reflexivity. Qed.
Example parse_test_157 : test_output "ContextActive" = PErr.
Proof. vm_compute. reflexivity. Qed.
Example parse_test_158 : test_input "ContextActive A" = PErr.
Proof. vm_compute. reflexivity. Qed.
Example match_test_001 : match_test "A" "+A" = Some Matched.
Proof. vm_compute. reflexivity. Qed.
Example match_test_002 : match_test "A" "+B" = Some NoMatch.
Proof. vm_compute. reflexivity. Qed.
Example match_test_003 : match_test "A B" "+A" = Some MightMatch.
Proof. vm_compute. reflexivity. Qed.
Example match_test_004 : match_test "A B" "+A -A" = Some MightMatch.
Proof. vm_compute. reflexivity. Qed.
Example match_test_005 : match_test "A B" "+A +B" = Some Matched.
Proof. vm_compute. reflexivity. Qed.
Example match_test_006 : match_test "A B" "+A -A +B" = Some Matched.
Proof. vm_compute. reflexivity. Qed.
Example match_test_007 : match_test "A B" "+B" = Some NoMatch.
Proof. vm_compute. reflexivity. Qed.
Example match_test_008 : match_test "A{B}" "+A" = Some MightMatch.
Proof. vm_compute. reflexivity. Qed.
Example match_test_009 : match_test "A{B}" "+B" = Some NoMatch.
Proof. vm_compute. reflexivity. Qed.
Example match_test_010 : match_test "A{B}" "+A -A" = Some NoMatch.
Proof. vm_compute. reflexivity. Qed.
Example match_test_011 : match_test "A{B}" "+A +B" = Some Matched.
Proof. vm_compute. reflexivity. Qed.
Example match_test_012 : match_test "(A B)" "+A" = Some MightMatch.
Proof. vm_compute. reflexivity. Qed.
Example match_test_013 : match_test "(A B)" "+B" = Some MightMatch.
Proof. vm_compute. reflexivity. Qed.
Example match_test_014 : match_test "(A B)" "+A -A" = Some NoMatch.
Proof. vm_compute. reflexivity. Qed.
Example match_test_015 : match_test "(A B)" "+B -B" = Some NoMatch.
Proof. vm_compute. reflexivity. Qed.
Example match_test_016 : match_test "(A B)" "+A +B" = Some Matched.
Proof. vm_compute. reflexivity. Qed.
Example match_test_017 : match_test "(A B)" "+B +A" = Some Matched.
Proof. vm_compute. reflexivity. Qed.
Example match_test_018 : match_test "A{B{C}}" "+A" = Some MightMatch.
Proof. vm_compute. reflexivity. Qed.
Example match_test_019 : match_test "A{B{C}}" "+A +B" = Some MightMatch.
Proof. vm_compute. reflexivity. Qed.
Example match_test_020 : match_test "A{B{C}}" "+A +B +C" = Some Matched.
Proof. vm_compute. reflexivity. Qed.
Example match_test_021 : match_test "A{B{C}}" "+A -A" = Some NoMatch.
Proof. vm_compute. reflexivity. Qed.
Example match_test_022 : match_test "A{B{C}}" "+B +A +C" = Some NoMatch.
Proof. vm_compute. reflexivity. Qed.
Example match_test_023 : match_test "A{B{C}}" "+A +C +B" = Some NoMatch.
Proof. vm_compute. reflexivity. Qed.
Example match_test_024 : match_test "A{B C}" "+A" = Some MightMatch.
Proof. vm_compute. reflexivity. Qed.
Example match_test_025 : match_test "A{B C}" "+B" = Some NoMatch.
Proof. vm_compute. reflexivity. Qed.
Example match_test_026 : match_test "A{B C}" "+A +B" = Some MightMatch.
Proof. vm_compute. reflexivity. Qed.
Example match_test_027 : match_test "A{B C}" "+A +C" = Some NoMatch.
Proof. vm_compute. reflexivity. Qed.
Example match_test_028 : match_test "A{B C}" "+A +B -B" = Some MightMatch.
Proof. vm_compute. reflexivity. Qed.
Example match_test_029 : match_test "A{B C}" "+A +B -A" = Some NoMatch.
Proof. vm_compute. reflexivity. Qed.
Example match_test_030 : match_test "A{B C}" "+A +B +C" = Some Matched.
Proof. vm_compute. reflexivity. Qed.
Example match_test_031 : match_test "A{B C}" "+A +B -B +C" = Some Matched.
Proof. vm_compute. reflexivity. Qed.
Example match_test_032 : match_test "A{(B C)}" "+A" = Some MightMatch.
Proof. vm_compute. reflexivity. Qed.
Example match_test_033 : match_test "A{(B C)}" "+B" = Some NoMatch.
Proof. vm_compute. reflexivity. Qed.
Example match_test_034 : match_test "A{(B C)}" "+A -B" = Some NoMatch.
Proof. vm_compute. reflexivity. Qed.
Example match_test_035 : match_test "A{(B C)}" "+A +B" = Some MightMatch.
Proof. vm_compute. reflexivity. Qed.
Example match_test_036 : match_test "A{(B C)}" "+A +B -B" = Some NoMatch.
Proof. vm_compute. reflexivity. Qed.
Example match_test_037 : match_test "A{(B C)}" "+A +B +C" = Some Matched.
Proof. vm_compute. reflexivity. Qed.
Example match_test_038 : match_test "A{(B C)}" "+A +B -A +C" = Some NoMatch.
Proof. vm_compute. reflexivity. Qed.
Example match_test_039 : match_test "A{(B C)}" "+A +C" = Some MightMatch.
Proof. vm_compute. reflexivity. Qed.
Example match_test_040 : match_test "A{(B C)}" "+A +C -C" = Some NoMatch.
Proof. vm_compute. reflexivity. Qed.
Example match_test_041 : match_test "A{(B C)}" "+A +C +B" = Some Matched.
Proof. vm_compute. reflexivity. Qed.
Example match_test_042 : match_test "A{(B C)}" "+A +C -A +B" = Some NoMatch.
Proof. vm_compute. reflexivity. Qed.
Example match_test_043 : match_test "(A B){C D}" "+A" = Some MightMatch.
Proof. vm_compute. reflexivity. Qed.
Example match_test_044 : match_test "(A B){C D}" "+B" = Some MightMatch.
Proof. vm_compute. reflexivity. Qed.
Example match_test_045 : match_test "(A B){C D}" "+A -A" = Some NoMatch.
Proof. vm_compute. reflexivity. Qed.
Example match_test_046 : match_test "(A B){C D}" "+A +B" = Some MightMatch.
Proof. vm_compute. reflexivity. Qed.
Example match_test_047 : match_test "(A B){C D}" "+B +A" = Some MightMatch.
Proof. vm_compute. reflexivity. Qed.
Example match_test_048 : match_test "(A B){C D}" "+A +B -A" = Some NoMatch.
Proof. vm_compute. reflexivity. Qed.
Example match_test_049 : match_test "(A B){C D}" "+A +B -B" = Some NoMatch.
Proof. vm_compute. reflexivity. Qed.
Example match_test_050 : match_test "(A B){C D}" "+A +B +D" = Some NoMatch.
Proof. vm_compute. reflexivity. Qed.
Example match_test_051 : match_test "(A B){C D}" "+A +B +C" = Some MightMatch.
Proof. vm_compute. reflexivity. Qed.
Example match_test_052 : match_test "(A B){C D}" "+A +B +C +D" = Some Matched.
Proof. vm_compute. reflexivity. Qed.
Example match_test_053 : match_test "(A B){C D}" "+A +B +C -C" = Some MightMatch.
Proof. vm_compute. reflexivity. Qed.
Example match_test_054 : match_test "(A B){C D}" "+A +B +C -C +D" = Some Matched.
Proof. vm_compute. reflexivity. Qed.
Example match_test_055 : match_test "(A B){C D}" "+B +A +C -C +D" = Some Matched.
Proof. vm_compute. reflexivity. Qed.
Example match_test_056 : match_test "(A B){C D}" "+B +A +C -C -B +D" = Some NoMatch.
Proof. vm_compute. reflexivity. Qed.
Example match_test_057 : match_test "!A B C" "+A" = Some NoMatch.
Proof. vm_compute. reflexivity. Qed.
Example match_test_058 : match_test "!A B C" "+A +B" = Some NoMatch.
Proof. vm_compute. reflexivity. Qed.
Example match_test_059 : match_test "!A B C" "+A +B +C" = Some NoMatch.
Proof. vm_compute. reflexivity. Qed.
Example match_test_060 : match_test "!A B C" "+B" = Some MightMatch.
Proof. vm_compute. reflexivity. Qed.
Example match_test_061 : match_test "!A B C" "+B +C" = Some Matched.
Proof. vm_compute. reflexivity. Qed.
Example match_test_062 : match_test "!A B C" "+B -B +C" = Some Matched.
Proof. vm_compute. reflexivity. Qed.
Example match_test_063 : match_test "B !A C" "+A" = Some NoMatch.
Proof. vm_compute. reflexivity. Qed.
Example match_test_064 : match_test "B !A C" "+A +B" = Some NoMatch.
Proof. vm_compute. reflexivity. Qed.
Example match_test_065 : match_test "B !A C" "+A +B +C" = Some NoMatch.
Proof. vm_compute. reflexivity. Qed.
Example match_test_066 : match_test "B !A C" "+B" = Some MightMatch.
Proof. vm_compute. reflexivity. Qed.
Example match_test_067 : match_test "B !A C" "+B +A" = Some NoMatch.
Proof. vm_compute. reflexivity. Qed.
Example match_test_068 : match_test "B !A C" "+B +C" = Some Matched.
Proof. vm_compute. reflexivity. Qed.
Example match_test_069 : match_test "B C !A" "+A" = Some NoMatch.
Proof. vm_compute. reflexivity. Qed.
Example match_test_070 : match_test "B C !A" "+A +B" = Some NoMatch.
Proof. vm_compute. reflexivity. Qed.
Example match_test_071 : match_test "B C !A" "+A +B +C" = Some NoMatch.
Proof. vm_compute. reflexivity. Qed.
Example match_test_072 : match_test "B C !A" "+B" = Some MightMatch.
Proof. vm_compute. reflexivity. Qed.
Example match_test_073 : match_test "B C !A" "+B +C" = Some Matched.
Proof. vm_compute. reflexivity. Qed.
Example match_test_074 : match_test "A !A B" "+A" = Some MightMatch.
Proof. vm_compute. reflexivity. Qed.
Example match_test_075 : match_test "A !A B" "+A +B" = Some NoMatch.
Proof. vm_compute. reflexivity. Qed.
Example match_test_076 : match_test "A !A B" "+A +C" = Some NoMatch.
Proof. vm_compute. reflexivity. Qed.
Example match_test_077 : match_test "A !A B" "+A -A" = Some MightMatch.
Proof. vm_compute. reflexivity. Qed.
Example match_test_078 : match_test "A !A B" "+A -A +A" = Some NoMatch.
Proof. vm_compute. reflexivity. Qed.
Example match_test_079 : match_test "A !A B" "+A -A +B" = Some Matched.
Proof. vm_compute. reflexivity. Qed.
Example match_test_080 : match_test "A !A B" "+A -A +C" = Some NoMatch.
Proof. vm_compute. reflexivity. Qed.
Example match_test_081 : match_test "Any" "+A" = Some Matched.
Proof. vm_compute. reflexivity. Qed.
Example match_test_082 : match_test "B{Any}" "+A" = Some NoMatch.
Proof. vm_compute. reflexivity. Qed.
Example match_test_083 : match_test "B{Any}" "+B" = Some MightMatch.
Proof. vm_compute. reflexivity. Qed.
Example match_test_084 : match_test "B{Any}" "+B -B" = Some NoMatch.
Proof. vm_compute. reflexivity. Qed.
Example match_test_085 : match_test "B{Any}" "+B +A" = Some Matched.
Proof. vm_compute. reflexivity. Qed.
Example match_test_086 : match_test "B Any" "+A" = Some NoMatch.
Proof. vm_compute. reflexivity. Qed.
Example match_test_087 : match_test "B Any" "+B" = Some MightMatch.
Proof. vm_compute. reflexivity. Qed.
Example match_test_088 : match_test "B Any" "+B -B" = Some MightMatch.
Proof. vm_compute. reflexivity. Qed.
Example match_test_089 : match_test "B Any" "+B -B +A" = Some Matched.
Proof. vm_compute. reflexivity. Qed.
Example match_test_090 : match_test "Any B" "+A" = Some MightMatch.
Proof. vm_compute. reflexivity. Qed.
Example match_test_091 : match_test "Any B" "+B" = Some MightMatch.
Proof. vm_compute. reflexivity. Qed.
Example match_test_092 : match_test "Any B" "+B -B" = Some MightMatch.
Proof. vm_compute. reflexivity. Qed.
Example match_test_093 : match_test "Any B" "+B -B +B" = Some Matched.
Proof. vm_compute. reflexivity. Qed.
Example match_test_094 : match_test "Any B" "+B -B +C" = Some NoMatch.
Proof. vm_compute. reflexivity. Qed.
Example match_test_095 : match_test "Any{B}" "+A" = Some MightMatch.
Proof. vm_compute. reflexivity. Qed.
Example match_test_096 : match_test "Any{B}" "+B" = Some MightMatch.
Proof. vm_compute. reflexivity. Qed.
Example match_test_097 : match_test "Any{B}" "+B -B" = Some NoMatch.
Proof. vm_compute. reflexivity. Qed.
Example match_test_098 : match_test "Any{B}" "+A +B" = Some Matched.
Proof. vm_compute. reflexivity. Qed.
Example match_test_099 : match_test "Any" "+ButtonLeft" = Some NoMatch.
Proof. vm_compute. reflexivity. Qed.
Example match_test_100 : match_test "Any" "+WheelUp" = Some NoMatch.
Proof. vm_compute. reflexivity. Qed.
Example match_test_101 : match_test "Any" "+Virtual1" = Some NoMatch.
Proof. vm_compute. reflexivity. Qed.
Example match_test_102 : match_test "A{100ms}" "+A" = Some MightMatch.
Proof. vm_compute. reflexivity. Qed.
Example match_test_103 : match_test "A{!100ms}" "+A" = Some MightMatch.
Proof. vm_compute. reflexivity. Qed.
Example config_test_001 : config_test "

  " [
  KContexts 1;
  KInputs 0 0] = true.
Proof. vm_compute. reflexivity. Qed.
Example config_test_002 : config_test "
    [default]
  " [
  KContexts 1;
  KInputs 0 0] = true.
Proof. vm_compute. reflexivity. Qed.
Example config_test_003 : config_test "
    @done
    A >> B
  " [
  KContexts 1;
  KInputs 0 0] = true.
Proof. vm_compute. reflexivity. Qed.
Example config_test_004 : config_ok "
    # comment
    MyMacro = A B C# comment ""

    Shift{A} >> B
    C >> CommandA ; comment $(
    CommandA >> X
    E >> CommandB

    ; comment
    [ system = ""Windows"" class='test'title=test ] # comment
    CommandA >> Y        #; comment /
    CommandB >> MyMacro   ;# comment '

    [system='Linux', title=/firefox[123]*x{1,3}/i ] # comment
    CommandA >> Shift{Y}      ## comment
    CommandB >> Shift{MyMacro}  ;; comment
  " = true.
Proof. vm_compute. reflexivity. Qed.
Example config_test_005 : config_ok "!A >> B" = false.
Proof. vm_compute. reflexivity. Qed.
Example config_test_006 : config_ok "!A 100ms >> B" = false.
Proof. vm_compute. reflexivity. Qed.
Example config_test_007 : config_ok "
    C >> CommandA
  " = false.
Proof. vm_compute. reflexivity. Qed.
Example config_test_008 : config_ok "
    C >> CommandA
    D >> CommandA
    CommandA >> E
  " = true.
Proof. vm_compute. reflexivity. Qed.
Example config_test_009 : config_ok "
    C >> CommandA
    CommandA >> D
    CommandA >> E
  " = false.
Proof. vm_compute. reflexivity. Qed.
Example config_test_010 : config_ok "
    CommandB >> E
  " = false.
Proof. vm_compute. reflexivity. Qed.
Example config_test_011 : config_ok "
    C >> CommandA
    CommandA >> CommandB
    CommandB >> D
  " = false.
Proof. vm_compute. reflexivity. Qed.
Example config_test_012 : config_ok "
    C >> CommandA

    [windo]
    CommandA >> D
  " = false.
Proof. vm_compute. reflexivity. Qed.
Example config_test_013 : config_ok "
    C >> CommandA

    []
    CommandA >> D
  " = false.
Proof. vm_compute. reflexivity. Qed.
Example config_test_014 : config_ok "
    [class='abc']
    CommandB >> D
  " = false.
Proof. vm_compute. reflexivity. Qed.
Example config_test_015 : config_ok "
    C >> CommandA

    [class='abc']
    CommandA >> D
    CommandA >> E
  " = false.
Proof. vm_compute. reflexivity. Qed.
Example config_test_016 : config_ok "
    [class='abc']
    C >> D
  " = true.
Proof. vm_compute. reflexivity. Qed.
Example config_test_017 : config_ok "
    [class='abc']
    C >> CommandA
    CommandA >> D
  " = true.
Proof. vm_compute. reflexivity. Qed.
Example config_test_018 : config_ok "
    C >> CommandA

    [class='abc']
    CommandA >> D
  " = true.
Proof. vm_compute. reflexivity. Qed.
Example config_test_019 : config_ok "
    C >> CommandA A
    CommandA >> D
  " = false.
Proof. vm_compute. reflexivity. Qed.
Example config_test_020 : config_ok "
    C >> A CommandA
    CommandA >> D
  " = false.
Proof. vm_compute. reflexivity. Qed.
Example config_test_021 : config_ok "
    C >> CommandA CommandB
    CommandA >> D
    CommandB >> E
  " = false.
Proof. vm_compute. reflexivity. Qed.
Example config_test_022 : config_ok "
    C >> CommandA
    [system='Linux'
    CommandA >> D
  " = false.
Proof. vm_compute. reflexivity. Qed.
Example config_test_023 : config_ok "
    C >> CommandA
    [system='Linux'] a
    CommandA >> D
  " = false.
Proof. vm_compute. reflexivity. Qed.
Example config_test_024 : config_ok "
    C >> CommandA
    [class='']
    CommandA >> D
  " = false.
Proof. vm_compute. reflexivity. Qed.
Example config_test_025 : config_ok "
    C >> CommandA
    [system=/Linux/]
    CommandA >> D
  " = false.
Proof. vm_compute. reflexivity. Qed.
Example config_test_026 : config_ok "
    C >> CommandA
    [class=/Linux(/]
    CommandA >> D
  " = false.
Proof. vm_compute. reflexivity. Qed.
Example config_test_027 : config_ok "
    [class = 'abc', title = ""test""]
    A >> B
  " = true.
Proof. vm_compute. reflexivity. Qed.
Example config_test_028 : config_ok "
    [class = 'abc',, title = ""test""]
    A >> B
  " = false.
Proof. vm_compute. reflexivity. Qed.
Example config_test_029 : config_ok "
    [class = 'abc', title = ""test"",]
    A >> B
  " = false.
Proof. vm_compute. reflexivity. Qed.
Example config_test_030 : config_ok "@unknown" = false.
Proof. vm_compute. reflexivity. Qed.
Example config_test_031 : config_ok "@allow-unmapped-commands" = true.
Proof. vm_compute. reflexivity. Qed.
Example config_test_032 : config_ok "@allow-unmapped-commands true" = true.
Proof. vm_compute. reflexivity. Qed.
Example config_test_033 : config_ok "@allow-unmapped-commands false" = true.
Proof. vm_compute. reflexivity. Qed.
Example config_test_034 : config_ok "@allow-unmapped-commands True" = false.
Proof. vm_compute. reflexivity. Qed.
Example config_test_035 : config_ok "@allow-unmapped-commands true a" = false.
Proof. vm_compute. reflexivity. Qed.
Example config_test_036 : config_ok "
    A >> command
  " = false.
Proof. vm_compute. reflexivity. Qed.
Example config_test_037 : config_ok "
    command >> A
  " = false.
Proof. vm_compute. reflexivity. Qed.
Example config_test_038 : config_ok "
    @allow-unmapped-commands
    A >> command
  " = true.
Proof. vm_compute. reflexivity. Qed.
Example config_test_039 : config_ok "
    @allow-unmapped-commands
    A >> Command   # assumes that Command is a command
  " = true.
Proof. vm_compute. reflexivity. Qed.
Example config_test_040 : config_ok "
    @allow-unmapped-commands
    command >> A
  " = true.
Proof. vm_compute. reflexivity. Qed.
Example config_test_041 : config_ok "
    @allow-unmapped-commands
    Command >> A   # assumes that Command is a key
  " = false.
Proof. vm_compute. reflexivity. Qed.
Example config_test_042 : config_ok "
    A >> Command
    Command >> B
  " = true.
Proof. vm_compute. reflexivity. Qed.
Example config_test_043 : config_ok "
    @enforce-lowercase-commands
    A >> Command
    Command >> B
  " = false.
Proof. vm_compute. reflexivity. Qed.
Example config_test_044 : config_ok "
    @enforce-lowercase-commands
    A >> command
    command >> B

    # ensure numbers are not treated as lowercase
    31 >> 64
  " = true.
Proof. vm_compute. reflexivity. Qed.
Example config_test_045 : config_ok "
    @allow-unmapped-commands
    @enforce-lowercase-commands
    A >> Command
  " = false.
Proof. vm_compute. reflexivity. Qed.
Example config_test_046 : config_ok "
    @allow-unmapped-commands
    @enforce-lowercase-commands
    A >> command
  " = true.
Proof. vm_compute. reflexivity. Qed.
Example config_test_047 : config_ok "
    @allow-unmapped-commands
    @enforce-lowercase-commands
    command >> A
  " = true.
Proof. vm_compute. reflexivity. Qed.
Example config_test_048 : config_ok "
    @allow-unmapped-commands
    @enforce-lowercase-commands
    command >> UndefinedKey   # output is still validated
  " = false.
Proof. vm_compute. reflexivity. Qed.
Example config_test_049 : config_ok "
    @enforce-lowercase-commands true
    A >> command
    @enforce-lowercase-commands false
    B >> Command
    @allow-unmapped-commands
  " = true.
Proof. vm_compute. reflexivity. Qed.
Example config_test_050 : config_ok "
    @forward-modifiers
    @forward-modifiers A ; comment
    @forward-modifiers Shift Control # comment
  " = true.
Proof. vm_compute. reflexivity. Qed.
Example config_test_051 : config_ok "@forward-modifiers Shft" = false.
Proof. vm_compute. reflexivity. Qed.
Example config_test_052 : config_ok "@forward-modifiers Shift ^" = false.
Proof. vm_compute. reflexivity. Qed.
Example config_test_053 : config_ok "@forward-modifiers 100ms" = false.
Proof. vm_compute. reflexivity. Qed.
Example config_test_054 : config_ok "@forward-modifiers Any" = false.
Proof. vm_compute. reflexivity. Qed.
Example config_test_055 : config_ok "@forward-modifiers ContextActive" = false.
Proof. vm_compute. reflexivity. Qed.
Example config_test_056 : config_test "
    @forward-modifiers Shift Control Shift AltLeft ControlLeft # duplicates are removed
    Control{A} >> Shift{X}
    Control{B} >> command
    ControlLeft{C} >> command
    AltLeft{D} >> command
    command >> Shift{Y}

    [title=""app""]
    command >> Control{Z}

    [stage]
    ShiftRight{X} >> Z
  " [
  KContexts 3;
  KInputs 0 11;
  KOutputs 0 6;
  KCommands 0 1;
  KInput 0 0 "+ShiftLeft ~ShiftLeft";
  KInput 0 1 "+ShiftRight ~ShiftRight";
  KInput 0 2 "+ControlLeft ~ControlLeft";
  KInput 0 3 "+ControlRight ~ControlRight";
  KInput 0 4 "+AltLeft ~AltLeft";
  KInput 0 5 "+ControlLeft +A ~A ~ControlLeft";
  KInput 0 6 "+ControlRight +A ~A ~ControlRight";
  KInput 0 7 "+ControlLeft +B ~B ~ControlLeft";
  KInput 0 8 "+ControlRight +B ~B ~ControlRight";
  KInput 0 9 "+ControlLeft +C ~C ~ControlLeft";
  KInput 0 10 "+AltLeft +D ~D ~AltLeft";
  KCommand 0 0 "!AltLeft !ControlRight !ControlLeft +ShiftLeft +Y -Y -ShiftLeft";
  KOutput 0 0 "!ControlRight !ControlLeft +ShiftLeft +X -X -ShiftLeft";
  KOutput 0 1 "+AltLeft";
  KOutput 0 2 "+ControlRight";
  KOutput 0 3 "+ControlLeft";
  KOutput 0 4 "+ShiftRight";
  KOutput 0 5 "+ShiftLeft";
  KInputs 1 0;
  KOutputs 1 0;
  KCommands 1 1;
  KCommand 1 0 "!AltLeft !ControlRight +ControlLeft +Z -Z -ControlLeft";
  KInputs 2 6;
  KOutputs 2 6;
  KCommands 2 0;
  KInput 2 0 "+ShiftLeft ~ShiftLeft";
  KInput 2 1 "+ShiftRight ~ShiftRight";
  KInput 2 2 "+ControlLeft ~ControlLeft";
  KInput 2 3 "+ControlRight ~ControlRight";
  KInput 2 4 "+AltLeft ~AltLeft";
  KInput 2 5 "+ShiftRight +X ~X ~ShiftRight";
  KOutput 2 0 "!ShiftRight +Z"] = true.
Proof. vm_compute. reflexivity. Qed.
Example config_test_057 : config_test "
    [default]
    A >> B
    B >> command

    [system=""Linux""]
    command >> L

    [system=""Linux"" title=""app1""]
    command >> X

    [system=""Windows""]
    command >> W

    [system=""Windows"" title=""app1""]
    command >> Y

    [system=""MacOS""]
    command >> M

    [system=""MacOS"" title=""app1""]
    command >> Z

    [title=""app2""]
    command >> R
  " [
  KContexts 4;
  KInputs 0 2;
  KOutputs 0 1;
  KCommands 0 0;
  KOutput 0 0 "+B";
  KCommand 1 0 "+L";
  KCommand 2 0 "+X";
  KCommand 3 0 "+R"] = true.
Proof. vm_compute. reflexivity. Qed.
Example config_test_058 : config_test "
    A >> command

    [device_id = ""usb-Dell_Dell_Multimedia_Pro_Keyboard-event-kbd""]
    command >> B
  " [
  KContexts 2] = true.
Proof. vm_compute. reflexivity. Qed.
Example config_test_059 : config_test "
    Ext = A
    Ext{C} >> X

    [modifier = ""Ext""]
    D >> Y

    [modifier = ""!Ext""]
    E >> Z

    [modifier = ""Virtual0 !Virtual1""]
    F >> W
  " [
  KContexts 4;
  KInputs 0 1;
  KInputs 1 1;
  KInputs 2 1;
  KInputs 3 1;
  KInput 0 0 "+A +C ~C ~A";
  KMods 0 "";
  KInput 1 0 "+D ~D";
  KMods 1 "+A";
  KInput 2 0 "+E ~E";
  KMods 2 "!A";
  KInput 3 0 "+F ~F";
  KMods 3 "+Virtual0 !Virtual1"] = true.
Proof. vm_compute. reflexivity. Qed.
Example config_test_060 : config_test "
    DeviceA = /Device1/
    TitleB = ""Title1""

    [device=DeviceA class = ""A""]
    A >> B

    [title=TitleB device = DeviceB]
    E >> F
  " [
  KContexts 2] = true.
Proof. vm_compute. reflexivity. Qed.
Example config_test_061 : config_test "
    [device != DeviceA class!=""A"" title!=""B"" path!=""C"" modifier!=A]
    A >> B
  " [
  KContexts 1] = true.
Proof. vm_compute. reflexivity. Qed.
Example config_test_062 : config_test "
    [title = A]
    A >> B

    [title = B]  # fallthrough
    [title = C]
    A >> B

    [title = D]  # removed
    
    [title = E]
    A >> B

    [title = F]  # removed
    #A >> B
    [title = G]
    A >> B

    [title = H]  # removed
    [title = I]  # removed

    [title = J]  # fallthrough
    [system = ""Linux""]   # two of
    [system = ""Windows""] # three
    [system = ""MacOS""]   # are removed
    A >> B
  " [
  KContexts 7;
  KFall 0 false;
  KFall 1 true;
  KFall 2 false;
  KFall 3 false;
  KFall 4 false;
  KFall 5 true;
  KFall 6 false] = true.
Proof. vm_compute. reflexivity. Qed.
Example config_test_063 : config_test "
    A >> B    # 0

    [stage]   # 1, no fallthrough
    [default] # 2
    B >> C
    
    [default] # removed
    [stage]   # 3
    C >> D

    [default] # removed

    [stage]   # 4
    E >> F

    [default] # removed

    [default] # 5
    F >> G

    [stage]   # 6, no fallthrough
    [stage]   # 7

    [default] # 8
    H >> J
  " [
  KContexts 9;
  KStage 0 true;
  KStage 1 true;
  KStage 2 false;
  KStage 3 true;
  KStage 4 true;
  KStage 5 false;
  KStage 6 true;
  KStage 7 true;
  KStage 8 false] = true.
Proof. vm_compute. reflexivity. Qed.
Example config_test_064 : config_test "
    MyMacro = A{B}
    MyMacro >> C # MyMacro
    C >> MyMacro   # MyMacro
  " [
  KInputs 0 2;
  KOutputs 0 2;
  KCommands 0 0;
  KInput 0 0 "+A +B ~B ~A";
  KOutput 0 0 "+C";
  KInput 0 1 "+C ~C";
  KOutput 0 1 "+A +B -B -A"] = true.
Proof. vm_compute. reflexivity. Qed.
Example config_test_065 : config_test "
    Macro1 = F   # >
    Macro2 = E Macro1 G  # Macro1
    Macro3 =     # -
    Macro1 A Macro2 Macro3 >> Macro3 Macro2 B Macro1
  " [
  KInputs 0 1;
  KOutputs 0 1;
  KCommands 0 0;
  KInput 0 0 "+F ~F +A ~A +E ~E +F ~F +G ~G";
  KOutput 0 0 "+E -E +F -F +G -G +B -B +F -F"] = true.
Proof. vm_compute. reflexivity. Qed.
Example config_test_066 : config_test "
    ab = E F
    X >> ab 'ab' ab
  " [
  KInputs 0 1;
  KOutputs 0 1;
  KCommands 0 0;
  KInput 0 0 "+X ~X";
  KOutput 0 0 "+E -E +F -F !Any +A -A +B -B +E -E +F -F"] = true.
Proof. vm_compute. reflexivity. Qed.
Example config_test_067 : config_test "
    Alt{A} >> X

    Alt = AltRight
    Alt{B} >> Y
  " [
  KInputs 0 3;
  KOutputs 0 2;
  KCommands 0 0;
  KInput 0 0 "+AltLeft +A ~A ~AltLeft";
  KInput 0 1 "+AltRight +A ~A ~AltRight";
  KInput 0 2 "+AltRight +B ~B ~AltRight";
  KOutput 0 0 "+X";
  KOutput 0 1 "+Y"] = true.
Proof. vm_compute. reflexivity. Qed.
Example config_test_068 : config_test "
    [system=""Linux""]
    Macro1 = C

    [system=""Windows""]
    Macro1 = D

    [system=""MacOS""]
    Macro1 = E

    [system=""MacOS""]
    Macro2 = F

    [system=""Windows""]
    Macro2 = G

    [system=""Linux""]
    Macro2 = H

    [system=""None""]
    Macro1 = A
    Macro2 = B
    Macro3 = C # still define, so the following is valid:
    Macro3 >> I

    [default]
    Macro1 >> X
    Macro2 >> Y
  " [
  KContexts 1;
  KInputs 0 2;
  KInput 0 0 "+C ~C";
  KInput 0 1 "+H ~H"] = true.
Proof. vm_compute. reflexivity. Qed.
Example config_test_069 : config_test "
    modify = $0{ $1 }
    print = ""$0""
    echo = $(echo ""$0"")
    func = modify[$0 $2, $1]

    A >> modify[ShiftLeft, X]
    B >> print[X]
    C >> print[ ""a b"" ]
    E >> echo[""Title""]
    F >> func[X, Y, Z, W]
    G >> func[X, Y]
    H >> func[ , Y, (Z W)]
    I >> func[ , Y Z, W]
  " [
  KContexts 1;
  KInputs 0 8;
  KOutputs 0 8;
  KOutput 0 0 "+ShiftLeft +X -X -ShiftLeft";
  KOutput 0 1 "!Any +ShiftLeft +X -X -ShiftLeft";
  KOutput 0 2 "!Any +A -A +Space -Space +B -B";
  KOutput 0 3 "+Action0";
  KOutput 0 4 "+X -X +Z +Y -Y -Z";
  KOutput 0 5 "+X +Y -Y -X";
  KOutput 0 6 "+Z +W +Y -Y -W -Z";
  KOutput 0 7 "+W +Y -Y +Z -Z -W"] = true.
Proof. vm_compute. reflexivity. Qed.
Example config_test_070 : config_ok " 
    macro = $0 
    A >> macro[]
  " = true.
Proof. vm_compute. reflexivity. Qed.
Example config_test_071 : config_ok " 
    macro = $0 
    A >> macro[,]
  " = true.
Proof. vm_compute. reflexivity. Qed.
Example config_test_072 : config_ok " 
    macro = $0 
    A >> macro[""]
  " = false.
Proof. vm_compute. reflexivity. Qed.
Example config_test_073 : config_ok " 
    macro = $0 
    A >> macro[']
  " = false.
Proof. vm_compute. reflexivity. Qed.
Example config_test_074 : config_ok " 
    macro = $0 
    A >> macro[,']
  " = false.
Proof. vm_compute. reflexivity. Qed.
Example config_test_075 : config_ok " 
    macro = $0 
    A >> macro[$]
  " = false.
Proof. vm_compute. reflexivity. Qed.
Example config_test_076 : config_test "
    LOG_FILE = ""logfile.txt""
    base00       = ""#657b83""
    logColor     = $(pastel --force-color paint ""$1"" ""[$0]"" >> ""${LOG_FILE}"")
    stage1       = 50ms logColor[""$0"", blue] ^ logColor[""$0"", base00]
    F1 >> stage1[""EditMode""]
  " [
  KContexts 1;
  KActions 2;
  KAction 0 "pastel --force-color paint ""blue"" ""[EditMode]"" >> ""logfile.txt""";
  KAction 1 "pastel --force-color paint ""#657b83"" ""[EditMode]"" >> ""logfile.txt"""] = true.
Proof. vm_compute. reflexivity. Qed.
Example config_test_077 : config_test "
    test = ""$0""
    A >> test[""test""]
  " [
  KContexts 1;
  KOutputs 0 1;
  KOutput 0 0 "!Any +T -T +E -E +S -S +T -T"] = true.
Proof. vm_compute. reflexivity. Qed.
Example config_test_078 : config_test "
    twice = $0 $0
    Boss = Virtual1
    make = $0$1
    A >> twice[X]
    B >> twice[Boss]
    C >> make[make[Arr, ow], make[Le, ft]]
  " [
  KContexts 1;
  KOutputs 0 3;
  KOutput 0 0 "+X -X +X -X";
  KOutput 0 1 "+Virtual1 -Virtual1 +Virtual1 -Virtual1";
  KOutput 0 2 "+ArrowLeft"] = true.
Proof. vm_compute. reflexivity. Qed.
Example config_test_079 : config_test "
    notify = $(notify-send -t 2000 -a ""keymapper"" ""$0"")
    F1 >> notify[""F7""]

    echo = $(echo $0$1)
    F2 >> echo[echo]
    F3 >> echo[""echo$echo""]
    F4 >> echo[""echo, echo""]
    F5 >> echo[""echo"", "" echo ""]
    F6 >> $(echo ${echo})
  " [
  KActions 6;
  KAction 0 "notify-send -t 2000 -a ""keymapper"" ""F7""";
  KAction 1 "echo $(echo $0$1)";
  KAction 2 "echo echo$(echo $0$1)";
  KAction 3 "echo echo, echo";
  KAction 4 "echo echo echo ";
  KAction 5 "echo $(echo $0$1)"] = true.
Proof. vm_compute. reflexivity. Qed.
Example config_test_080 : config_test "
    x0 = 
    x1 = x0[$0] $0
    x2 = x1[$0] $0

    xi = x$0
    x = xi[$0][$1]
    xZ = x[$0, Z]

    A >> xi[0][X]
    B >> x[1, Y]
    C >> xZ[2]
    D >> xi[i][2][W]
  " [
  KContexts 1;
  KOutputs 0 4;
  KOutput 0 0 "";
  KOutput 0 1 "+Y";
  KOutput 0 2 "+Z -Z +Z -Z";
  KOutput 0 3 "+W -W +W -W"] = true.
Proof. vm_compute. reflexivity. Qed.
Example config_test_081 : config_ok "A >> length[A]" = false.
Proof. vm_compute. reflexivity. Qed.
Example config_test_082 : config_ok "A >> repeat[A,]" = false.
Proof. vm_compute. reflexivity. Qed.
Example config_test_083 : config_ok "A >> repeat[A, A]" = false.
Proof. vm_compute. reflexivity. Qed.
Example config_test_084 : config_test "
    macro1 = repeat[$0, length[""$1""]]
    macro2 = repeat[$0, $1]
    A >> repeat[A, length[""Hello""]]
    B >> macro1[B, ""Hello""]
    C >> macro2[C, length[""Hello""]]
    D >> repeat[repeat[A, 2] B, 2]
  " [
  KContexts 1;
  KOutputs 0 4;
  KOutput 0 0 "+A -A +A -A +A -A +A -A +A -A";
  KOutput 0 1 "+B -B +B -B +B -B +B -B +B -B";
  KOutput 0 2 "+C -C +C -C +C -C +C -C +C -C";
  KOutput 0 3 "+A -A +A -A +B -B +A -A +A -A +B -B"] = true.
Proof. vm_compute. reflexivity. Qed.
Example config_test_085 : config_test "
    type = $(keymapperctl --type $0)

    # Replace trigger string with the second argument
    trigger = ? ""$0"" >> repeat[Backspace, sub[length[""$0""], 1]] $1

    # Format date
    format_date = $(date +""$0"")

    trigger["":time"", type[format_date[""%H:%M:%S""]]]
  " [
  KContexts 1;
  KActions 1] = true.
Proof. vm_compute. reflexivity. Qed.
Example config_test_086 : config_test "
    test = default[$1, R] $0
    A >> test[]    # [] is currently required
    B >> test[X]
    C >> test[Y, S]
    D >> test[, T]
  " [
  KContexts 1;
  KOutputs 0 4;
  KOutput 0 0 "+R";
  KOutput 0 1 "+R -R +X -X";
  KOutput 0 2 "+S -S +Y -Y";
  KOutput 0 3 "+T"] = true.
Proof. vm_compute. reflexivity. Qed.
Example config_test_087 : config_test "
    log1 = $(echo $0)
    log2 = $(echo --color $1 $0)
    switch = $0$1
    log = switch[""log"", $$][$0, $1]
    A >> log[""test""]
    B >> log[""test"", ""FF0000""]   # '#' is not allowed yet
  " [
  KContexts 1;
  KActions 2;
  KAction 0 "echo test";
  KAction 1 "echo --color FF0000 test"] = true.
Proof. vm_compute. reflexivity. Qed.
Example config_test_088 : config_test "
    apply[$0 >> $(keymapperctl --type $0), Space, Enter, Escape, Tab]
  " [
  KContexts 1;
  KInputs 0 4;
  KActions 4;
  KInput 0 0 "+Space ~Space";
  KInput 0 1 "+Enter ~Enter";
  KInput 0 2 "+Escape ~Escape";
  KInput 0 3 "+Tab ~Tab";
  KAction 0 "keymapperctl --type Space";
  KAction 1 "keymapperctl --type Enter";
  KAction 2 "keymapperctl --type Escape";
  KAction 3 "keymapperctl --type Tab"] = true.
Proof. vm_compute. reflexivity. Qed.
Example config_test_089 : config_test "
    macro = $0 >> $(keymapperctl --type $1)
    apply[macro, \
      Space, Enter, \
      Escape, Tab]
  " [
  KContexts 1;
  KInputs 0 2;
  KActions 2;
  KInput 0 0 "+Space ~Space";
  KInput 0 1 "+Escape ~Escape";
  KAction 0 "keymapperctl --type Enter";
  KAction 1 "keymapperctl --type Tab"] = true.
Proof. vm_compute. reflexivity. Qed.
Example config_test_090 : config_test "
    A >> X { apply[($0 $1 ), Y, Z, R, S] }
    B >> X { apply[""$0 $1 "", Y, Z, R, S] }
  " [
  KContexts 1;
  KOutputs 0 2;
  KOutput 0 0 "+X +Y +Z -Y -Z +R +S -R -S -X";
  KOutput 0 1 "+X +Y -Y +Z -Z +R -R +S -S -X"] = true.
Proof. vm_compute. reflexivity. Qed.
Example config_test_091 : config_test "
    macro = A >> B ; comment
    shift = >> # comment
    context = [title = ""$0""] # comment
    subst = ? ""$0"" >> repeat[Backspace, sub[length[""$0""], 1]] ""$1"" # comment

    macro  # comment
    C shift D ; comment

    context[""Test""] # comment
    subst[""cat"", ""dog""] ; comment
  " [
  KContexts 2;
  KInputs 0 2;
  KOutputs 0 2;
  KInput 0 0 "+A ~A";
  KOutput 0 0 "+B";
  KInput 0 1 "+C ~C";
  KOutput 0 1 "+D";
  KInputs 1 1;
  KOutputs 1 1;
  KInput 1 0 "? !ShiftLeft !ShiftRight !AltLeft !AltRight !ControlLeft !ControlRight +C ~C +A ~A +T";
  KOutput 1 0 "+Backspace -Backspace +Backspace -Backspace !Any +D -D +O -O +G -G"] = true.
Proof. vm_compute. reflexivity. Qed.
Example config_test_092 : config_ok "
    default = [default]
    default
  " = false.
Proof. vm_compute. reflexivity. Qed.
Example config_test_093 : config_ok "
    Mouse = /Mouse|Logitech USB Receiver|G502/i
    [device = Mouse]
  " = true.
Proof. vm_compute. reflexivity. Qed.
Example config_test_094 : config_test "
    macro = A
    macro = macro B
    macro = macro C
    macro >> macro
  " [
  KOutput 0 0 "+A -A +B -B +C -C"] = true.
Proof. vm_compute. reflexivity. Qed.
Example config_test_095 : config_ok "A >> $" = false.
Proof. vm_compute. reflexivity. Qed.
Example config_test_096 : config_ok "A >> $(ls " = false.
Proof. vm_compute. reflexivity. Qed.
Example config_test_097 : config_ok "A >> A{ $(ls) }" = false.
Proof. vm_compute. reflexivity. Qed.
Example config_test_098 : config_ok "A >> (A $(ls) )" = false.
Proof. vm_compute. reflexivity. Qed.
Example config_test_099 : config_test "
    trigger = $(pastel ""#cb4b16"" ""[trigger = $0]"")
    A >> trigger[""[""]
    B >> trigger[""]""]
    C >> trigger[""#""]
    D >> trigger["";""]
  " [
  KActions 4] = true.
Proof. vm_compute. reflexivity. Qed.
Example config_test_100 : config_test "
    Ext = IntlBackslash | AltRight
    Ext{A} >> ArrowLeft
  " [
  KContexts 1;
  KInputs 0 2;
  KOutputs 0 1;
  KInput 0 0 "+IntlBackslash +A ~A ~IntlBackslash";
  KIndex 0 0 (0);
  KInput 0 1 "+AltRight +A ~A ~AltRight";
  KIndex 0 1 (0)] = true.
Proof. vm_compute. reflexivity. Qed.
Example config_test_101 : config_test "
    Ext = IntlBackslash | AltRight
    Alt = AltLeft
    Ext2 = Ext | Alt
    Ext2{A} >> ArrowLeft
  " [
  KContexts 1;
  KInputs 0 3;
  KOutputs 0 1;
  KInput 0 0 "+IntlBackslash +A ~A ~IntlBackslash";
  KInput 0 1 "+AltRight +A ~A ~AltRight";
  KInput 0 2 "+AltLeft +A ~A ~AltLeft"] = true.
Proof. vm_compute. reflexivity. Qed.
Example config_test_102 : config_ok "Ext = A | " = false.
Proof. vm_compute. reflexivity. Qed.
Example config_test_103 : config_ok "Ext = A | B |" = false.
Proof. vm_compute. reflexivity. Qed.
Example config_test_104 : config_ok "Ext = A | something" = false.
Proof. vm_compute. reflexivity. Qed.
Example config_test_105 : config_ok "A >> B | C" = false.
Proof. vm_compute. reflexivity. Qed.
Example config_test_106 : config_ok "A | B >> C" = false.
Proof. vm_compute. reflexivity. Qed.
Example config_test_107 : config_test "
    Ext = IntlBackslash | AltRight | AltLeft | AltRight  # duplicates are not removed (not ideal)
    Macro = A $(ls -la | grep xy) B
    Ext{A} >> Macro
    X >> !Ext Y
  " [
  KContexts 1;
  KInputs 0 5;
  KOutputs 0 2;
  KInput 0 0 "+IntlBackslash +A ~A ~IntlBackslash";
  KInput 0 1 "+AltRight +A ~A ~AltRight";
  KInput 0 2 "+AltLeft +A ~A ~AltLeft";
  KInput 0 3 "+AltRight +A ~A ~AltRight";
  KInput 0 4 "+X ~X";
  KOutput 0 0 "+A -A +Action0 +B -B";
  KOutput 0 1 "!IntlBackslash !AltRight !AltLeft !AltRight +Y";
  KActions 1;
  KAction 0 "ls -la | grep xy"] = true.
Proof. vm_compute. reflexivity. Qed.
Example config_test_108 : config_test "
    Shift{A} >> Shift{B}
  " [
  KContexts 1;
  KInputs 0 2;
  KOutputs 0 2;
  KInput 0 0 "+ShiftLeft +A ~A ~ShiftLeft";
  KInput 0 1 "+ShiftRight +A ~A ~ShiftRight";
  KOutput 0 0 "+ShiftLeft +B -B -ShiftLeft";
  KOutput 0 1 "+ShiftRight +B -B -ShiftRight"] = true.
Proof. vm_compute. reflexivity. Qed.
Example config_test_109 : config_test "
    Mod = A | B | C
    
    [modifier = ""Mod""] # 2 fallthrough contexts
    R >> X
    
    [modifier = ""!Mod !Mod Mod""]  # duplicates are removed
    S >> Y
    
    [default]
    T >> Z
  " [
  KContexts 5;
  KFall 0 true;
  KInputs 0 0;
  KFall 1 true;
  KInputs 1 0;
  KFall 2 false;
  KInputs 2 1;
  KFall 3 false;
  KInputs 3 1;
  KFall 4 false;
  KInputs 4 1;
  KMods 0 "+A";
  KMods 1 "+B";
  KMods 2 "+C";
  KMods 3 "!A !B !C";
  KMods 4 ""] = true.
Proof. vm_compute. reflexivity. Qed.
Example config_test_110 : config_test "
    A >> '\nnt\t'
    B >> $(echo ""a\nb"")
  " [
  KContexts 1;
  KOutputs 0 2;
  KOutput 0 0 "!Any +Enter -Enter +N -N +T -T +Tab -Tab";
  KActions 1;
  KAction 0 "echo ""a\nb"""] = true.
Proof. vm_compute. reflexivity. Qed.
Example config_test_111 : config_test "
    F1 >> $(i3-open -c Telegram ""gtk-launch $(basename $(rg -l Telegram $HOME/.local/share/applications)) "")
  " [
  KActions 1] = true.
Proof. vm_compute. reflexivity. Qed.
Example config_test_112 : config_ok "@skip-dev /.*/" = false.
Proof. vm_compute. reflexivity. Qed.
Example config_test_113 : config_ok "@skip-device /.*/ X" = false.
Proof. vm_compute. reflexivity. Qed.
Example config_test_114 : config_test "
    A >> \
    B \
    C 
  " [
  KContexts 1;
  KInput 0 0 "+A ~A";
  KOutput 0 0 "+B -B +C -C"] = true.
Proof. vm_compute. reflexivity. Qed.
Example config_test_115 : config_test "
    TEST = ""bc""
    A >> ""${TEST}TEST$TEST"";
    [title = /${TEST}TEST$TEST/]
    B >> $(${TEST}TEST$TEST)
    D >> $(${TEST1 TEST$TEST1)
  " [
  KContexts 2;
  KOutputs 0 1;
  KActions 2;
  KOutput 0 0 "!Any +B -B +C -C +ShiftLeft +T -T +E -E +S -S +T -T -ShiftLeft +B -B +C -C";
  KAction 0 "bcTESTbc";
  KAction 1 "${TEST1 TEST$TEST1"] = true.
Proof. vm_compute. reflexivity. Qed.
