(** * The project's own test inputs, run through the model.

    Generated by tools/conform.py. Code/Tests/test03.cpp:5-27 lists files that Parse must
    refuse and files that it must accept; the model gives these verdicts, in both builds.
    Tests 01, 02, 04 and 05 deserialize, validate and serialize; the model gives the values
    they expect, in builds with system conversions.
    These are tests of the model, not theorems about it. *)

From Verif Require Import Base Str NumModel MapModel ParserModel WriterModel SchemaModel PropWrite BuildModel PropBuild.
From Coq Require Import Floats.SpecFloat.

Definition accepts (system : bool) (t : list Z) : bool :=
  match build_parse (reader system) None (t ++ [0]) with
  | Ret (PR kOk _ _, Some _, _) => true
  | _ => false
  end.
Definition refuses (system : bool) (t : list Z) : bool :=
  match build_parse (reader system) None (t ++ [0]) with
  | Ret (PR kOk _ _, _, _) => false
  | Ret (PR _ _ _, _, _) => true
  | _ => false
  end.

(** Data/Test/jsonchecker/fail2.json *)
Definition fail2 : list Z := [
  91; 34; 85; 110; 99; 108; 111; 115; 101; 100; 32; 97; 114; 114; 97; 121; 34].
Example fail2_refuses : refuses true fail2 = true /\ refuses false fail2 = true.
Proof. vm_compute. auto. Qed.

(** Data/Test/jsonchecker/fail3.json *)
Definition fail3 : list Z := [
  123; 117; 110; 113; 117; 111; 116; 101; 100; 95; 107; 101; 121; 58; 32; 34; 107; 101; 121; 115; 32; 109; 117; 115; 116; 32; 98; 101; 32; 113; 117;
  111; 116; 101; 100; 34; 125].
Example fail3_refuses : refuses true fail3 = true /\ refuses false fail3 = true.
Proof. vm_compute. auto. Qed.

(** Data/Test/jsonchecker/fail4.json *)
Definition fail4 : list Z := [
  91; 34; 101; 120; 116; 114; 97; 32; 99; 111; 109; 109; 97; 34; 44; 93].
Example fail4_refuses : refuses true fail4 = true /\ refuses false fail4 = true.
Proof. vm_compute. auto. Qed.

(** Data/Test/jsonchecker/fail5.json *)
Definition fail5 : list Z := [
  91; 34; 100; 111; 117; 98; 108; 101; 32; 101; 120; 116; 114; 97; 32; 99; 111; 109; 109; 97; 34; 44; 44; 93].
Example fail5_refuses : refuses true fail5 = true /\ refuses false fail5 = true.
Proof. vm_compute. auto. Qed.

(** Data/Test/jsonchecker/fail6.json *)
Definition fail6 : list Z := [
  91; 32; 32; 32; 44; 32; 34; 60; 45; 45; 32; 109; 105; 115; 115; 105; 110; 103; 32; 118; 97; 108; 117; 101; 34; 93].
Example fail6_refuses : refuses true fail6 = true /\ refuses false fail6 = true.
Proof. vm_compute. auto. Qed.

(** Data/Test/jsonchecker/fail7.json *)
Definition fail7 : list Z := [
  91; 34; 67; 111; 109; 109; 97; 32; 97; 102; 116; 101; 114; 32; 116; 104; 101; 32; 99; 108; 111; 115; 101; 34; 93; 44].
Example fail7_refuses : refuses true fail7 = true /\ refuses false fail7 = true.
Proof. vm_compute. auto. Qed.

(** Data/Test/jsonchecker/fail8.json *)
Definition fail8 : list Z := [
  91; 34; 69; 120; 116; 114; 97; 32; 99; 108; 111; 115; 101; 34; 93; 93].
Example fail8_refuses : refuses true fail8 = true /\ refuses false fail8 = true.
Proof. vm_compute. auto. Qed.

(** Data/Test/jsonchecker/fail9.json *)
Definition fail9 : list Z := [
  123; 34; 69; 120; 116; 114; 97; 32; 99; 111; 109; 109; 97; 34; 58; 32; 116; 114; 117; 101; 44; 125].
Example fail9_refuses : refuses true fail9 = true /\ refuses false fail9 = true.
Proof. vm_compute. auto. Qed.

(** Data/Test/jsonchecker/fail10.json *)
Definition fail10 : list Z := [
  123; 34; 69; 120; 116; 114; 97; 32; 118; 97; 108; 117; 101; 32; 97; 102; 116; 101; 114; 32; 99; 108; 111; 115; 101; 34; 58; 32; 116; 114; 117; 101;
  125; 32; 34; 109; 105; 115; 112; 108; 97; 99; 101; 100; 32; 113; 117; 111; 116; 101; 100; 32; 118; 97; 108; 117; 101; 34].
Example fail10_refuses : refuses true fail10 = true /\ refuses false fail10 = true.
Proof. vm_compute. auto. Qed.

(** Data/Test/jsonchecker/fail11.json *)
Definition fail11 : list Z := [
  123; 34; 73; 108; 108; 101; 103; 97; 108; 32; 101; 120; 112; 114; 101; 115; 115; 105; 111; 110; 34; 58; 32; 49; 32; 43; 32; 50; 125].
Example fail11_refuses : refuses true fail11 = true /\ refuses false fail11 = true.
Proof. vm_compute. auto. Qed.

(** Data/Test/jsonchecker/fail12.json *)
Definition fail12 : list Z := [
  123; 34; 73; 108; 108; 101; 103; 97; 108; 32; 105; 110; 118; 111; 99; 97; 116; 105; 111; 110; 34; 58; 32; 97; 108; 101; 114; 116; 40; 41; 125].
Example fail12_refuses : refuses true fail12 = true /\ refuses false fail12 = true.
Proof. vm_compute. auto. Qed.

(** Data/Test/jsonchecker/fail13.json *)
Definition fail13 : list Z := [
  123; 34; 78; 117; 109; 98; 101; 114; 115; 32; 99; 97; 110; 110; 111; 116; 32; 104; 97; 118; 101; 32; 108; 101; 97; 100; 105; 110; 103; 32; 122; 101;
  114; 111; 101; 115; 34; 58; 32; 48; 49; 51; 125].
Example fail13_refuses : refuses true fail13 = true /\ refuses false fail13 = true.
Proof. vm_compute. auto. Qed.

(** Data/Test/jsonchecker/fail14.json *)
Definition fail14 : list Z := [
  123; 34; 78; 117; 109; 98; 101; 114; 115; 32; 99; 97; 110; 110; 111; 116; 32; 98; 101; 32; 104; 101; 120; 34; 58; 32; 48; 120; 49; 52; 125].
Example fail14_refuses : refuses true fail14 = true /\ refuses false fail14 = true.
Proof. vm_compute. auto. Qed.

(** Data/Test/jsonchecker/fail15.json *)
Definition fail15 : list Z := [
  91; 34; 73; 108; 108; 101; 103; 97; 108; 32; 98; 97; 99; 107; 115; 108; 97; 115; 104; 32; 101; 115; 99; 97; 112; 101; 58; 32; 92; 120; 49; 53; 34;
  93].
Example fail15_refuses : refuses true fail15 = true /\ refuses false fail15 = true.
Proof. vm_compute. auto. Qed.

(** Data/Test/jsonchecker/fail16.json *)
Definition fail16 : list Z := [
  91; 92; 110; 97; 107; 101; 100; 93].
Example fail16_refuses : refuses true fail16 = true /\ refuses false fail16 = true.
Proof. vm_compute. auto. Qed.

(** Data/Test/jsonchecker/fail17.json *)
Definition fail17 : list Z := [
  91; 34; 73; 108; 108; 101; 103; 97; 108; 32; 98; 97; 99; 107; 115; 108; 97; 115; 104; 32; 101; 115; 99; 97; 112; 101; 58; 32; 92; 48; 49; 55; 34; 93].
Example fail17_refuses : refuses true fail17 = true /\ refuses false fail17 = true.
Proof. vm_compute. auto. Qed.

(** Data/Test/jsonchecker/fail19.json *)
Definition fail19 : list Z := [
  123; 34; 77; 105; 115; 115; 105; 110; 103; 32; 99; 111; 108; 111; 110; 34; 32; 110; 117; 108; 108; 125].
Example fail19_refuses : refuses true fail19 = true /\ refuses false fail19 = true.
Proof. vm_compute. auto. Qed.

(** Data/Test/jsonchecker/fail20.json *)
Definition fail20 : list Z := [
  123; 34; 68; 111; 117; 98; 108; 101; 32; 99; 111; 108; 111; 110; 34; 58; 58; 32; 110; 117; 108; 108; 125].
Example fail20_refuses : refuses true fail20 = true /\ refuses false fail20 = true.
Proof. vm_compute. auto. Qed.

(** Data/Test/jsonchecker/fail21.json *)
Definition fail21 : list Z := [
  123; 34; 67; 111; 109; 109; 97; 32; 105; 110; 115; 116; 101; 97; 100; 32; 111; 102; 32; 99; 111; 108; 111; 110; 34; 44; 32; 110; 117; 108; 108; 125].
Example fail21_refuses : refuses true fail21 = true /\ refuses false fail21 = true.
Proof. vm_compute. auto. Qed.

(** Data/Test/jsonchecker/fail22.json *)
Definition fail22 : list Z := [
  91; 34; 67; 111; 108; 111; 110; 32; 105; 110; 115; 116; 101; 97; 100; 32; 111; 102; 32; 99; 111; 109; 109; 97; 34; 58; 32; 102; 97; 108; 115; 101;
  93].
Example fail22_refuses : refuses true fail22 = true /\ refuses false fail22 = true.
Proof. vm_compute. auto. Qed.

(** Data/Test/jsonchecker/fail23.json *)
Definition fail23 : list Z := [
  91; 34; 66; 97; 100; 32; 118; 97; 108; 117; 101; 34; 44; 32; 116; 114; 117; 116; 104; 93].
Example fail23_refuses : refuses true fail23 = true /\ refuses false fail23 = true.
Proof. vm_compute. auto. Qed.

(** Data/Test/jsonchecker/fail24.json *)
Definition fail24 : list Z := [
  91; 39; 115; 105; 110; 103; 108; 101; 32; 113; 117; 111; 116; 101; 39; 93].
Example fail24_refuses : refuses true fail24 = true /\ refuses false fail24 = true.
Proof. vm_compute. auto. Qed.

(** Data/Test/jsonchecker/fail25.json *)
Definition fail25 : list Z := [
  91; 34; 9; 116; 97; 98; 9; 99; 104; 97; 114; 97; 99; 116; 101; 114; 9; 105; 110; 9; 115; 116; 114; 105; 110; 103; 9; 34; 93].
Example fail25_refuses : refuses true fail25 = true /\ refuses false fail25 = true.
Proof. vm_compute. auto. Qed.

(** Data/Test/jsonchecker/fail26.json *)
Definition fail26 : list Z := [
  91; 34; 116; 97; 98; 92; 32; 32; 32; 99; 104; 97; 114; 97; 99; 116; 101; 114; 92; 32; 32; 32; 105; 110; 92; 32; 32; 115; 116; 114; 105; 110; 103; 92;
  32; 32; 34; 93].
Example fail26_refuses : refuses true fail26 = true /\ refuses false fail26 = true.
Proof. vm_compute. auto. Qed.

(** Data/Test/jsonchecker/fail27.json *)
Definition fail27 : list Z := [
  91; 34; 108; 105; 110; 101; 10; 98; 114; 101; 97; 107; 34; 93].
Example fail27_refuses : refuses true fail27 = true /\ refuses false fail27 = true.
Proof. vm_compute. auto. Qed.

(** Data/Test/jsonchecker/fail28.json *)
Definition fail28 : list Z := [
  91; 34; 108; 105; 110; 101; 92; 10; 98; 114; 101; 97; 107; 34; 93].
Example fail28_refuses : refuses true fail28 = true /\ refuses false fail28 = true.
Proof. vm_compute. auto. Qed.

(** Data/Test/jsonchecker/fail29.json *)
Definition fail29 : list Z := [
  91; 48; 101; 93].
Example fail29_refuses : refuses true fail29 = true /\ refuses false fail29 = true.
Proof. vm_compute. auto. Qed.

(** Data/Test/jsonchecker/fail30.json *)
Definition fail30 : list Z := [
  91; 48; 101; 43; 93].
Example fail30_refuses : refuses true fail30 = true /\ refuses false fail30 = true.
Proof. vm_compute. auto. Qed.

(** Data/Test/jsonchecker/fail31.json *)
Definition fail31 : list Z := [
  91; 48; 101; 43; 45; 49; 93].
Example fail31_refuses : refuses true fail31 = true /\ refuses false fail31 = true.
Proof. vm_compute. auto. Qed.

(** Data/Test/jsonchecker/fail32.json *)
Definition fail32 : list Z := [
  123; 34; 67; 111; 109; 109; 97; 32; 105; 110; 115; 116; 101; 97; 100; 32; 105; 102; 32; 99; 108; 111; 115; 105; 110; 103; 32; 98; 114; 97; 99; 101;
  34; 58; 32; 116; 114; 117; 101; 44].
Example fail32_refuses : refuses true fail32 = true /\ refuses false fail32 = true.
Proof. vm_compute. auto. Qed.

(** Data/Test/jsonchecker/fail1_PASSES_RFC_8259.json *)
Definition fail1_PASSES_RFC_8259 : list Z := [
  34; 65; 32; 74; 83; 79; 78; 32; 112; 97; 121; 108; 111; 97; 100; 32; 115; 104; 111; 117; 108; 100; 32; 98; 101; 32; 97; 110; 32; 111; 98; 106; 101;
  99; 116; 32; 111; 114; 32; 97; 114; 114; 97; 121; 44; 32; 110; 111; 116; 32; 97; 32; 115; 116; 114; 105; 110; 103; 46; 34].
Example fail1_PASSES_RFC_8259_accepts : accepts true fail1_PASSES_RFC_8259 = true /\ accepts false fail1_PASSES_RFC_8259 = true.
Proof. vm_compute. auto. Qed.

(** Data/Test/jsonchecker/fail18_PASSES_RFC_8259.json *)
Definition fail18_PASSES_RFC_8259 : list Z := [
  91; 91; 91; 91; 91; 91; 91; 91; 91; 91; 91; 91; 91; 91; 91; 91; 91; 91; 91; 91; 34; 84; 111; 111; 32; 100; 101; 101; 112; 34; 93; 93; 93; 93; 93; 93;
  93; 93; 93; 93; 93; 93; 93; 93; 93; 93; 93; 93; 93; 93].
Example fail18_PASSES_RFC_8259_accepts : accepts true fail18_PASSES_RFC_8259 = true /\ accepts false fail18_PASSES_RFC_8259 = true.
Proof. vm_compute. auto. Qed.

(** Data/Test/jsonchecker/pass1.json *)
Definition pass1 : list Z := [
  91; 10; 32; 32; 32; 32; 34; 74; 83; 79; 78; 32; 84; 101; 115; 116; 32; 80; 97; 116; 116; 101; 114; 110; 32; 112; 97; 115; 115; 49; 34; 44; 10; 32;
  32; 32; 32; 123; 34; 111; 98; 106; 101; 99; 116; 32; 119; 105; 116; 104; 32; 49; 32; 109; 101; 109; 98; 101; 114; 34; 58; 91; 34; 97; 114; 114; 97;
  121; 32; 119; 105; 116; 104; 32; 49; 32; 101; 108; 101; 109; 101; 110; 116; 34; 93; 125; 44; 10; 32; 32; 32; 32; 123; 125; 44; 10; 32; 32; 32; 32;
  91; 93; 44; 10; 32; 32; 32; 32; 45; 52; 50; 44; 10; 32; 32; 32; 32; 116; 114; 117; 101; 44; 10; 32; 32; 32; 32; 102; 97; 108; 115; 101; 44; 10; 32;
  32; 32; 32; 110; 117; 108; 108; 44; 10; 32; 32; 32; 32; 123; 10; 32; 32; 32; 32; 32; 32; 32; 32; 34; 105; 110; 116; 101; 103; 101; 114; 34; 58; 32;
  49; 50; 51; 52; 53; 54; 55; 56; 57; 48; 44; 10; 32; 32; 32; 32; 32; 32; 32; 32; 34; 114; 101; 97; 108; 34; 58; 32; 45; 57; 56; 55; 54; 46; 53; 52;
  51; 50; 49; 48; 44; 10; 32; 32; 32; 32; 32; 32; 32; 32; 34; 101; 34; 58; 32; 48; 46; 49; 50; 51; 52; 53; 54; 55; 56; 57; 101; 45; 49; 50; 44; 10; 32;
  32; 32; 32; 32; 32; 32; 32; 34; 69; 34; 58; 32; 49; 46; 50; 51; 52; 53; 54; 55; 56; 57; 48; 69; 43; 51; 52; 44; 10; 32; 32; 32; 32; 32; 32; 32; 32;
  34; 34; 58; 32; 32; 50; 51; 52; 53; 54; 55; 56; 57; 48; 49; 50; 69; 54; 54; 44; 10; 32; 32; 32; 32; 32; 32; 32; 32; 34; 122; 101; 114; 111; 34; 58;
  32; 48; 44; 10; 32; 32; 32; 32; 32; 32; 32; 32; 34; 111; 110; 101; 34; 58; 32; 49; 44; 10; 32; 32; 32; 32; 32; 32; 32; 32; 34; 115; 112; 97; 99; 101;
  34; 58; 32; 34; 32; 34; 44; 10; 32; 32; 32; 32; 32; 32; 32; 32; 34; 113; 117; 111; 116; 101; 34; 58; 32; 34; 92; 34; 34; 44; 10; 32; 32; 32; 32; 32;
  32; 32; 32; 34; 98; 97; 99; 107; 115; 108; 97; 115; 104; 34; 58; 32; 34; 92; 92; 34; 44; 10; 32; 32; 32; 32; 32; 32; 32; 32; 34; 99; 111; 110; 116;
  114; 111; 108; 115; 34; 58; 32; 34; 92; 98; 92; 102; 92; 110; 92; 114; 92; 116; 34; 44; 10; 32; 32; 32; 32; 32; 32; 32; 32; 34; 115; 108; 97; 115;
  104; 34; 58; 32; 34; 47; 32; 38; 32; 92; 47; 34; 44; 10; 32; 32; 32; 32; 32; 32; 32; 32; 34; 97; 108; 112; 104; 97; 34; 58; 32; 34; 97; 98; 99; 100;
  101; 102; 103; 104; 105; 106; 107; 108; 109; 110; 111; 112; 113; 114; 115; 116; 117; 118; 119; 121; 122; 34; 44; 10; 32; 32; 32; 32; 32; 32; 32; 32;
  34; 65; 76; 80; 72; 65; 34; 58; 32; 34; 65; 66; 67; 68; 69; 70; 71; 72; 73; 74; 75; 76; 77; 78; 79; 80; 81; 82; 83; 84; 85; 86; 87; 89; 90; 34; 44;
  10; 32; 32; 32; 32; 32; 32; 32; 32; 34; 100; 105; 103; 105; 116; 34; 58; 32; 34; 48; 49; 50; 51; 52; 53; 54; 55; 56; 57; 34; 44; 10; 32; 32; 32; 32;
  32; 32; 32; 32; 34; 48; 49; 50; 51; 52; 53; 54; 55; 56; 57; 34; 58; 32; 34; 100; 105; 103; 105; 116; 34; 44; 10; 32; 32; 32; 32; 32; 32; 32; 32; 34;
  115; 112; 101; 99; 105; 97; 108; 34; 58; 32; 34; 96; 49; 126; 33; 64; 35; 36; 37; 94; 38; 42; 40; 41; 95; 43; 45; 61; 123; 39; 58; 91; 44; 93; 125;
  124; 59; 46; 60; 47; 62; 63; 34; 44; 10; 32; 32; 32; 32; 32; 32; 32; 32; 34; 104; 101; 120; 34; 58; 32; 34; 92; 117; 48; 49; 50; 51; 92; 117; 52; 53;
  54; 55; 92; 117; 56; 57; 65; 66; 92; 117; 67; 68; 69; 70; 92; 117; 97; 98; 99; 100; 92; 117; 101; 102; 52; 65; 34; 44; 10; 32; 32; 32; 32; 32; 32;
  32; 32; 34; 116; 114; 117; 101; 34; 58; 32; 116; 114; 117; 101; 44; 10; 32; 32; 32; 32; 32; 32; 32; 32; 34; 102; 97; 108; 115; 101; 34; 58; 32; 102;
  97; 108; 115; 101; 44; 10; 32; 32; 32; 32; 32; 32; 32; 32; 34; 110; 117; 108; 108; 34; 58; 32; 110; 117; 108; 108; 44; 10; 32; 32; 32; 32; 32; 32;
  32; 32; 34; 97; 114; 114; 97; 121; 34; 58; 91; 32; 32; 93; 44; 10; 32; 32; 32; 32; 32; 32; 32; 32; 34; 111; 98; 106; 101; 99; 116; 34; 58; 123; 32;
  32; 125; 44; 10; 32; 32; 32; 32; 32; 32; 32; 32; 34; 97; 100; 100; 114; 101; 115; 115; 34; 58; 32; 34; 53; 48; 32; 83; 116; 46; 32; 74; 97; 109; 101;
  115; 32; 83; 116; 114; 101; 101; 116; 34; 44; 10; 32; 32; 32; 32; 32; 32; 32; 32; 34; 117; 114; 108; 34; 58; 32; 34; 104; 116; 116; 112; 58; 47; 47;
  119; 119; 119; 46; 74; 83; 79; 78; 46; 111; 114; 103; 47; 34; 44; 10; 32; 32; 32; 32; 32; 32; 32; 32; 34; 99; 111; 109; 109; 101; 110; 116; 34; 58;
  32; 34; 47; 47; 32; 47; 42; 32; 60; 33; 45; 45; 32; 45; 45; 34; 44; 10; 32; 32; 32; 32; 32; 32; 32; 32; 34; 35; 32; 45; 45; 32; 45; 45; 62; 32; 42;
  47; 34; 58; 32; 34; 32; 34; 44; 10; 32; 32; 32; 32; 32; 32; 32; 32; 34; 32; 115; 32; 112; 32; 97; 32; 99; 32; 101; 32; 100; 32; 34; 32; 58; 91; 49;
  44; 50; 32; 44; 32; 51; 10; 10; 44; 10; 10; 52; 32; 44; 32; 53; 32; 32; 32; 32; 32; 32; 32; 32; 44; 32; 32; 32; 32; 32; 32; 32; 32; 32; 32; 54; 32;
  32; 32; 32; 32; 32; 32; 32; 32; 32; 32; 44; 55; 32; 32; 32; 32; 32; 32; 32; 32; 93; 44; 34; 99; 111; 109; 112; 97; 99; 116; 34; 58; 91; 49; 44; 50;
  44; 51; 44; 52; 44; 53; 44; 54; 44; 55; 93; 44; 10; 32; 32; 32; 32; 32; 32; 32; 32; 34; 106; 115; 111; 110; 116; 101; 120; 116; 34; 58; 32; 34; 123;
  92; 34; 111; 98; 106; 101; 99; 116; 32; 119; 105; 116; 104; 32; 49; 32; 109; 101; 109; 98; 101; 114; 92; 34; 58; 91; 92; 34; 97; 114; 114; 97; 121;
  32; 119; 105; 116; 104; 32; 49; 32; 101; 108; 101; 109; 101; 110; 116; 92; 34; 93; 125; 34; 44; 10; 32; 32; 32; 32; 32; 32; 32; 32; 34; 113; 117;
  111; 116; 101; 115; 34; 58; 32; 34; 38; 35; 51; 52; 59; 32; 92; 117; 48; 48; 50; 50; 32; 37; 50; 50; 32; 48; 120; 50; 50; 32; 48; 51; 52; 32; 38; 35;
  120; 50; 50; 59; 34; 44; 10; 32; 32; 32; 32; 32; 32; 32; 32; 34; 92; 47; 92; 92; 92; 34; 92; 117; 67; 65; 70; 69; 92; 117; 66; 65; 66; 69; 92; 117;
  65; 66; 57; 56; 92; 117; 70; 67; 68; 69; 92; 117; 98; 99; 100; 97; 92; 117; 101; 102; 52; 65; 92; 98; 92; 102; 92; 110; 92; 114; 92; 116; 96; 49;
  126; 33; 64; 35; 36; 37; 94; 38; 42; 40; 41; 95; 43; 45; 61; 91; 93; 123; 125; 124; 59; 58; 39; 44; 46; 47; 60; 62; 63; 34; 10; 58; 32; 34; 65; 32;
  107; 101; 121; 32; 99; 97; 110; 32; 98; 101; 32; 97; 110; 121; 32; 115; 116; 114; 105; 110; 103; 34; 10; 32; 32; 32; 32; 125; 44; 10; 32; 32; 32; 32;
  48; 46; 53; 32; 44; 57; 56; 46; 54; 10; 44; 10; 57; 57; 46; 52; 52; 10; 44; 10; 10; 49; 48; 54; 54; 44; 10; 49; 101; 49; 44; 10; 48; 46; 49; 101; 49;
  44; 10; 49; 101; 45; 49; 44; 10; 49; 101; 48; 48; 44; 50; 101; 43; 48; 48; 44; 50; 101; 45; 48; 48; 10; 44; 34; 114; 111; 115; 101; 98; 117; 100; 34;
  93].
Example pass1_accepts : accepts true pass1 = true /\ accepts false pass1 = true.
Proof. vm_compute. auto. Qed.

(** Data/Test/jsonchecker/pass2.json *)
Definition pass2 : list Z := [
  91; 91; 91; 91; 91; 91; 91; 91; 91; 91; 91; 91; 91; 91; 91; 91; 91; 91; 91; 34; 78; 111; 116; 32; 116; 111; 111; 32; 100; 101; 101; 112; 34; 93; 93;
  93; 93; 93; 93; 93; 93; 93; 93; 93; 93; 93; 93; 93; 93; 93; 93; 93].
Example pass2_accepts : accepts true pass2 = true /\ accepts false pass2 = true.
Proof. vm_compute. auto. Qed.

(** Data/Test/jsonchecker/pass3.json *)
Definition pass3 : list Z := [
  123; 10; 32; 32; 32; 32; 34; 74; 83; 79; 78; 32; 84; 101; 115; 116; 32; 80; 97; 116; 116; 101; 114; 110; 32; 112; 97; 115; 115; 51; 34; 58; 32; 123;
  10; 32; 32; 32; 32; 32; 32; 32; 32; 34; 84; 104; 101; 32; 111; 117; 116; 101; 114; 109; 111; 115; 116; 32; 118; 97; 108; 117; 101; 34; 58; 32; 34;
  109; 117; 115; 116; 32; 98; 101; 32; 97; 110; 32; 111; 98; 106; 101; 99; 116; 32; 111; 114; 32; 97; 114; 114; 97; 121; 46; 34; 44; 10; 32; 32; 32;
  32; 32; 32; 32; 32; 34; 73; 110; 32; 116; 104; 105; 115; 32; 116; 101; 115; 116; 34; 58; 32; 34; 73; 116; 32; 105; 115; 32; 97; 110; 32; 111; 98;
  106; 101; 99; 116; 46; 34; 10; 32; 32; 32; 32; 125; 10; 125; 10].
Example pass3_accepts : accepts true pass3 = true /\ accepts false pass3 = true.
Proof. vm_compute. auto. Qed.

(** Data/Test/test_file01.json *)
Definition test_file01 : list Z := [
  123; 10; 32; 32; 32; 32; 32; 32; 32; 32; 32; 32; 32; 32; 32; 34; 100; 111; 117; 98; 108; 101; 34; 58; 32; 50; 46; 51; 54; 53; 51; 49; 101; 45; 55;
  44; 10; 32; 32; 32; 32; 34; 115; 116; 114; 49; 34; 58; 32; 34; 115; 116; 114; 49; 86; 97; 108; 117; 101; 34; 44; 34; 115; 116; 114; 50; 34; 58; 32;
  32; 32; 34; 115; 116; 114; 50; 86; 97; 108; 117; 101; 34; 44; 10; 32; 32; 32; 32; 34; 98; 111; 111; 108; 34; 58; 116; 114; 117; 101; 44; 10; 32; 32;
  32; 32; 34; 110; 117; 108; 108; 34; 58; 32; 32; 32; 32; 32; 32; 32; 32; 32; 110; 117; 108; 108; 10; 125].

(** Data/Test/test_file02.json *)
Definition test_file02 : list Z := [
  123; 10; 32; 32; 32; 32; 34; 100; 111; 117; 98; 108; 101; 34; 58; 32; 50; 46; 52; 53; 101; 45; 50; 44; 10; 32; 32; 32; 32; 34; 100; 111; 117; 98;
  108; 101; 65; 114; 114; 97; 121; 34; 58; 32; 91; 32; 51; 44; 32; 52; 44; 32; 53; 44; 32; 49; 46; 54; 53; 101; 49; 55; 44; 32; 45; 50; 46; 51; 53;
  101; 45; 50; 48; 44; 32; 49; 46; 57; 54; 52; 51; 101; 45; 49; 49; 32; 93; 44; 10; 32; 32; 32; 32; 34; 115; 116; 114; 105; 110; 103; 65; 114; 114; 97;
  121; 34; 58; 32; 91; 32; 34; 115; 116; 114; 49; 34; 44; 32; 34; 115; 116; 114; 50; 34; 44; 32; 34; 115; 116; 114; 51; 34; 44; 32; 34; 115; 116; 114;
  52; 34; 32; 93; 44; 10; 32; 32; 32; 32; 34; 111; 98; 106; 101; 99; 116; 34; 58; 32; 123; 10; 32; 32; 32; 32; 32; 32; 32; 32; 34; 98; 111; 111; 108;
  34; 58; 32; 102; 97; 108; 115; 101; 44; 10; 32; 32; 32; 32; 32; 32; 32; 32; 34; 111; 98; 106; 101; 99; 116; 65; 114; 114; 97; 121; 34; 58; 32; 91;
  10; 32; 32; 32; 32; 32; 32; 32; 32; 32; 32; 32; 32; 123; 10; 32; 32; 32; 32; 32; 32; 32; 32; 32; 32; 32; 32; 32; 32; 32; 32; 34; 100; 111; 117; 98;
  108; 101; 34; 58; 32; 51; 46; 52; 54; 44; 10; 32; 32; 32; 32; 32; 32; 32; 32; 32; 32; 32; 32; 32; 32; 32; 32; 34; 115; 116; 114; 105; 110; 103; 34;
  58; 32; 34; 115; 116; 114; 53; 34; 10; 32; 32; 32; 32; 32; 32; 32; 32; 32; 32; 32; 32; 125; 44; 10; 32; 32; 32; 32; 32; 32; 32; 32; 32; 32; 32; 32;
  123; 10; 32; 32; 32; 32; 32; 32; 32; 32; 32; 32; 32; 32; 32; 32; 32; 32; 34; 100; 111; 117; 98; 108; 101; 34; 58; 32; 50; 46; 52; 54; 44; 10; 32; 32;
  32; 32; 32; 32; 32; 32; 32; 32; 32; 32; 32; 32; 32; 32; 34; 115; 116; 114; 105; 110; 103; 34; 58; 32; 34; 115; 116; 114; 54; 34; 10; 32; 32; 32; 32;
  32; 32; 32; 32; 32; 32; 32; 32; 125; 44; 10; 32; 32; 32; 32; 32; 32; 32; 32; 32; 32; 32; 32; 123; 10; 32; 32; 32; 32; 32; 32; 32; 32; 32; 32; 32; 32;
  32; 32; 32; 32; 34; 100; 111; 117; 98; 108; 101; 34; 58; 32; 45; 50; 46; 52; 54; 44; 10; 32; 32; 32; 32; 32; 32; 32; 32; 32; 32; 32; 32; 32; 32; 32;
  32; 34; 115; 116; 114; 105; 110; 103; 34; 58; 32; 34; 115; 116; 114; 55; 34; 10; 32; 32; 32; 32; 32; 32; 32; 32; 32; 32; 32; 32; 125; 10; 32; 32; 32;
  32; 32; 32; 32; 32; 93; 10; 32; 32; 32; 32; 125; 10; 125].

(** Data/Test/test_file04.json *)
Definition test_file04 : list Z := [
  123; 10; 32; 32; 32; 32; 34; 118; 101; 114; 115; 105; 111; 110; 34; 58; 32; 34; 49; 46; 48; 46; 49; 34; 44; 10; 32; 32; 32; 32; 34; 115; 116; 114;
  105; 110; 103; 77; 97; 112; 34; 58; 32; 123; 10; 32; 32; 32; 32; 32; 32; 32; 32; 34; 115; 116; 114; 49; 34; 58; 32; 34; 115; 116; 114; 49; 118; 34;
  44; 10; 32; 32; 32; 32; 32; 32; 32; 32; 34; 115; 116; 114; 50; 34; 58; 32; 34; 115; 116; 114; 50; 118; 34; 44; 10; 32; 32; 32; 32; 32; 32; 32; 32;
  34; 115; 116; 114; 51; 34; 58; 32; 34; 115; 116; 114; 51; 118; 34; 10; 32; 32; 32; 32; 125; 10; 125].

Definition root_of (t : list Z) : option value :=
  match sd_parse None (t ++ [0]) with Ret (PR kOk 0 0, Some v) => Some v | _ => None end.
Definition zero : double := S754_zero false.
(** What the program's doubles and bools hold before anything is stored. *)
Definition noise : junk := Junk (S754_infinity true) true.

(** Code/Tests/test01.cpp:5-16 *)
Definition test01_type : ty :=
  TStruct (PItem (Named `"str1") None TString (PItem (Named `"str2") None TStdString
    (PItem (Named `"double") (Some (DDouble zero)) TDouble (PItem (Named `"bool") (Some (DBool false)) TBool
    (PItem (Named `"null") None TNull PNil))))).
(** Code/Tests/test01.cpp:33-63 *)
Example test01 : sd_deserialize noise test01_type (root_of test_file01) (fresh noise test01_type) =
  Ret (kOk, DStruct [DString `"str1Value"; DString `"str2Value"; DDouble (S754_finite false 8935888532477120 (-75)); DBool true; DNull]).
Proof. vm_compute. reflexivity. Qed.

(** Code/Tests/test02.cpp:5-32 *)
Definition test02_inner : ty :=
  TStruct (PItem (Named `"double") (Some (DDouble zero)) TDouble (PItem (Named `"string") None TString PNil)).
Definition test02_object : ty :=
  TStruct (PItem (Named `"bool") (Some (DBool true)) TBool (PItem (Named `"objectArray") None (TArray test02_inner) PNil)).
Definition test02_type : ty :=
  TStruct (PItem (Named `"double") (Some (DDouble zero)) TDouble (PItem (Named `"doubleArray") None (TArray TDouble)
    (PItem (Named `"stringArray") None (TArray TString) (PItem (Named `"object") None test02_object PNil)))).
Definition test02_data (last : double) : data :=
  DStruct [DDouble (S754_finite false 7061644215716938 (-58));
    DArray (map DDouble [S754_finite false 6755399441055744 (-51); S754_finite false 4503599627370496 (-50); S754_finite false 5629499534213120 (-50); S754_finite false 5156250000000000 (5); S754_finite true 7809214475236381 (-118); S754_finite false 6079214047920681 (-88)]);
    DArray (map DString [`"str1"; `"str2"; `"str3"; `"str4"]);
    DStruct [DBool false; DArray [DStruct [DDouble (S754_finite false 7791227355350958 (-51)); DString `"str5"]; DStruct [DDouble (S754_finite false 5539427541665710 (-51)); DString `"str6"];
      DStruct [DDouble last; DString `"str7"]]]].
(** Code/Tests/test02.cpp:50-74 *)
Example test02_read : sd_deserialize noise test02_type (root_of test_file02) (fresh noise test02_type) =
  Ret (kOk, test02_data (S754_finite true 5539427541665710 (-51))).
Proof. vm_compute. reflexivity. Qed.
(** Code/Tests/test02.cpp:76-110. The test reads [jSd] again, not [jSd2], which it parsed from the written file; here the
    written text is read. *)
Example test02_round_trip :
  match sd_serialize test02_type (test02_data (S754_finite false 5097521214938884 (-107))) (root_of test_file02) with
  | Ret (kOk, Some v) => sd_deserialize noise test02_type (root_of (text (snd (sd_write (Some v) 1 9)))) (fresh noise test02_type)
  | _ => UB
  end = Ret (kOk, test02_data (S754_finite false 5097521214938884 (-107))).
Proof. vm_compute. reflexivity. Qed.

(** Without system conversions test 02 fails at lines 57-61: 2.45e-2 is read as the double below the compiler's. *)
Example test02_portable :
  match build_parse (reader false) None (test_file02 ++ [0]) with
  | Ret (PR kOk 0 0, Some v, _) =>
      match sd_deserialize noise test02_type (Some v) (fresh noise test02_type) with
      | Ret (kOk, DStruct (DDouble d :: _)) => d = S754_finite false 7061644215716937 (-58) /\ d <> S754_finite false 7061644215716938 (-58)
      | _ => False
      end
  | _ => False
  end.
Proof. vm_compute. split; [reflexivity|discriminate]. Qed.

(** Code/Tests/test04.cpp:6-13 *)
Definition test04_type : ty :=
  TStruct (PItem (Named `"version") None TString (PItem (Named `"stringMap") None (TObjectMap TString) PNil)).
(** Code/Tests/test04.cpp:30-54 *)
Example test04 : exists m, sd_deserialize noise test04_type (root_of test_file04) (fresh noise test04_type) =
    Ret (kOk, DStruct [DString `"1.0.1"; DMap m]) /\
  find_map_element m `"str1" = Some (DString `"str1v") /\
  find_map_element m `"str2" = Some (DString `"str2v") /\
  find_map_element m `"str3" = Some (DString `"str3v").
Proof. eexists. split; [vm_compute; reflexivity|]. vm_compute. auto. Qed.

(** Code/Tests/test05.cpp:5-12 *)
Definition test05_type : ty :=
  TStruct (PItem (Named `"version") None TStdString (PItem (Named `"stringMap") None (TStdMap TStdString) PNil)).
(** Code/Tests/test05.cpp:29-61 *)
Example test05 : sd_validate test05_type (root_of test_file04) = Ret kOk /\
  sd_deserialize noise test05_type (root_of test_file04) (fresh noise test05_type) =
    Ret (kOk, DStruct [DString `"1.0.1";
      DStdMap [(`"str1", DString `"str1v"); (`"str2", DString `"str2v"); (`"str3", DString `"str3v")]]).
Proof. vm_compute. auto. Qed.
