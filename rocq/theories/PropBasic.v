(** * Properties of the integer helpers, of StaticHash, and of the hexadecimal and
    type texts: C72 - C77. *)

From Verif Require Import Base Str TextModel StringModel BasicModel ToolsModel SpecNum SpecText SpecBasic.
From Verif Require Import StringProofs BasicProofs.

(** ** C72: helpers defined for every argument *)

(** The bit tricks compute the smaller and the larger of two numbers, one of them
    zero; both widths. *)
Theorem C72_zero (w x : Z) : w = 32 \/ w = 64 -> - 2 ^ (w - 1) <= x < 2 ^ (w - 1) ->
  min_zero_c w x = Z.min x 0 /\ max_zero_c w x = Z.max x 0.
Proof. intros [-> | ->] H; split; (apply min_zero_ok || apply max_zero_ok); lia. Qed.
Print Assumptions C72_zero.

Theorem C72_min_max (x y : Z) : min_c x y = Z.min x y /\ max_c x y = Z.max x y.
Proof. unfold min_c, max_c. destruct (Z.ltb_spec x y), (Z.ltb_spec y x); lia. Qed.
Print Assumptions C72_min_max.

(** Counting in a circle. *)
Theorem C72_modulo (m x : Z) : 0 <= x < m -> m < 2 ^ 31 ->
  inc_mod m x = Ret ((x + 1) mod m) /\ dec_mod m x = Ret ((x - 1) mod m) /\
  exists y, inc_mod m x = Ret y /\ dec_mod m y = Ret x.
Proof.
  intros H M. split; [now apply inc_mod_ok|]. split; [now apply dec_mod_ok|].
  exists ((x + 1) mod m). split; [now apply inc_mod_ok|].
  pose proof (Z.mod_pos_bound (x + 1) m ltac:(lia)). rewrite dec_mod_ok by lia. f_equal.
  rewrite Zminus_mod_idemp_l. replace (x + 1 - 1) with x by lia. apply Z.mod_small. lia.
Qed.
Print Assumptions C72_modulo.

Example C72_e1 : min_zero_c 32 (-7) = -7 /\ max_zero_c 64 (- 2 ^ 63) = 0 /\ inc_mod 5 4 = Ret 0 /\ dec_mod 5 0 = Ret 4.
Proof. vm_compute. auto. Qed.

(** ** C73: helpers that are undefined for some arguments *)

(** Full statement: the result of every helper is defined for every argument. *)
Theorem C73_refuted :
  abs_c 32 (- 2 ^ 31) = UB /\ abs_c 64 (- 2 ^ 63) = UB /\ sgn_c 32 (- 2 ^ 31) = UB /\ sgn_c 64 (- 2 ^ 63) = UB /\
  overflow_zero (2 ^ 31 - 1) (-1) = UB /\ pow2_floor 0 = UB /\ pow2_ceil 0 = UB /\ pow2_ceil (2 ^ 31 + 1) = UB.
Proof. vm_compute. repeat split. Qed.
Print Assumptions C73_refuted.

(** For all other arguments they are what they should be, and these are all the
    exceptions. *)
Theorem C73_sign_partial (w x : Z) : w = 32 \/ w = 64 -> - 2 ^ (w - 1) <= x < 2 ^ (w - 1) ->
  (x <> - 2 ^ (w - 1) -> abs_c w x = Ret (Z.abs x) /\ sgn_c w x = Ret (Z.sgn x)) /\
  (x = - 2 ^ (w - 1) -> abs_c w x = UB /\ sgn_c w x = UB).
Proof.
  intros W H. assert (1 < w) by lia. split; intros E.
  - split; [apply abs_c_ok|apply sgn_c_ok]; lia.
  - subst x. now apply least_ub.
Qed.
Print Assumptions C73_sign_partial.

Theorem C73_overflow_zero_partial (x y : Z) :
  (- 2 ^ 31 <= x - y < 2 ^ 31 -> overflow_zero x y = Ret (if x <? y then x else 0)) /\
  (~ (- 2 ^ 31 <= x - y < 2 ^ 31) -> overflow_zero x y = UB).
Proof. split; [apply overflow_zero_ok|apply overflow_zero_ub]. Qed.
Print Assumptions C73_overflow_zero_partial.

Theorem C73_powers_partial (n : Z) : 0 <= n < 2 ^ 32 ->
  (1 <= n -> exists r, pow2_floor n = Ret r /\ power2 r /\ r <= n < 2 * r) /\
  (1 <= n <= 2 ^ 31 -> exists r, pow2_ceil n = Ret r /\ power2 r /\ n <= r < 2 * n) /\
  (1 <= n -> 2 ^ int_log2 n <= n < 2 ^ (int_log2 n + 1)) /\
  (n = 0 \/ 2 ^ 31 < n -> pow2_ceil n = UB) /\ pow2_floor 0 = UB /\ int_log2 0 = -1.
Proof.
  intros H. split; [intros; apply pow2_floor_ok; lia|]. split; [apply pow2_ceil_ok|].
  split; [intros; apply int_log2_ok; lia|]. destruct (pow2_ub n) as [A B].
  split; [intros C; apply B; lia|]. split; [exact A|reflexivity].
Qed.
Print Assumptions C73_powers_partial.

Example C73_e1 : abs_c 32 (-2147483647) = Ret 2147483647 /\ sgn_c 64 (-5) = Ret (-1) /\ overflow_zero 7 8 = Ret 7 /\
  pow2_floor 1000 = Ret 512 /\ pow2_ceil 1000 = Ret 1024 /\ pow2_ceil (2 ^ 31) = Ret (2 ^ 31) /\ int_log2 1000 = 9.
Proof. vm_compute. repeat split. Qed.

(** ** C74: Exchange *)

(** Full statement: afterwards the first variable has the value of the second and
    the second that of the first. False when both are the same variable: it
    becomes zero. *)
Theorem C74_refuted (b : list Z) (i : nat) (x : Z) : nth_error b i = Some x -> x <> 0 ->
  exists b', exchange b i i = Ret b' /\ nth_error b' i <> Some x.
Proof. intros X N. destruct (exchange_same b i x X) as (b' & E & Z0). exists b'. split; [exact E|]. rewrite Z0. congruence. Qed.
Print Assumptions C74_refuted.

Theorem C74_partial (b : list Z) (i j : nat) (x y : Z) : i <> j -> nth_error b i = Some x -> nth_error b j = Some y ->
  exists b', exchange b i j = Ret b' /\ length b' = length b /\ nth_error b' i = Some y /\ nth_error b' j = Some x /\
    forall k, k <> i -> k <> j -> nth_error b' k = nth_error b k.
Proof. apply exchange_ok. Qed.
Print Assumptions C74_partial.

Example C74_e1 : exchange [5; -9; 7] 1 2 = Ret [5; 7; -9] /\ exchange [5; -9; 7] 1 1 = Ret [5; 0; 7].
Proof. vm_compute. auto. Qed.

(** ** C75: StaticHash and Hash *)

(** Full statement: the constant StaticHash<...>::value of the characters of a text
    (at most 17) is Hash of that text. False for characters from 128 on where char
    is signed. *)
Theorem C75_refuted : exists s, bytes s /\ (length s <= 17)%nat /\ holds (s ++ [0]) s /\
  hash_text (s ++ [0]) 0 <> Ret (static_hash true s).
Proof.
  exists [195; 169]. split; [repeat constructor; unfold is_byte; lia|]. split; [simpl; lia|].
  split; [split; [repeat constructor; lia|now exists []]|]. vm_compute. discriminate.
Qed.
Print Assumptions C75_refuted.

Theorem C75_partial (sc : bool) (p s : list Z) : holds p s -> bytes s ->
  sc = false \/ Forall (fun c => c < 128) s -> hash_text p 0 = Ret (static_hash sc s).
Proof. intros H B A. apply static_hash_ok; auto. lia. Qed.
Print Assumptions C75_partial.

Example C75_e1 : hash_text (`"foobar" ++ [0]) 0 = Ret (static_hash true (`"foobar")) /\
  static_hash true (`"foobar") = static_hash false (`"foobar") /\ static_hash true [195; 169] <> static_hash false [195; 169].
Proof. vm_compute. repeat split. discriminate. Qed.

(** ** C76: hexadecimal texts *)

(** The function [f] writes the [n] digits of numbers of [width] bits into a result
    with [size] bytes. *)
Definition writes_hex (f : list Z -> Z -> out (list Z)) (n size : nat) (width : Z) : Prop :=
  forall b num, length b = size -> 0 <= num < 2 ^ width ->
  exists b' t, f b num = Ret b' /\ length b' = size /\ holds b' t /\ length t = n /\
    hex_text t (num mod 2 ^ (4 * Z.of_nat n)).

Lemma hex_any n size width : (n + 1 <= size)%nat -> writes_hex (fun b num => hex_writes n num b 0) n size width.
Proof.
  intros H b num L N. destruct (hex_writes_ok n num b 0 ltac:(lia) ltac:(lia)) as (t & E & Lt & T & F).
  do 2 eexists. split; [exact E|]. split; [rewrite splice_length; [exact L|rewrite app_length; simpl; lia]|].
  split; [now apply holds_splice0|]. split; [exact Lt|].
  replace (2 ^ (4 * Z.of_nat n)) with (16 ^ Z.of_nat n) by (rewrite Z.pow_mul_r by lia; reflexivity). exact T.
Qed.

Theorem C76_hex : writes_hex hex_string16 16 32 64 /\ writes_hex hex_string8 8 16 32 /\
  writes_hex hex_string4 4 8 32 /\ writes_hex hex_string2 2 4 32.
Proof. repeat split; apply hex_any; lia. Qed.
Print Assumptions C76_hex.

(** The digits determine the number: no two 64 bit numbers have the same text. *)
Theorem C76_injective (b b' r r' t : list Z) (x y : Z) : length b = 32%nat -> length b' = 32%nat -> 0 <= x < 2 ^ 64 -> 0 <= y < 2 ^ 64 ->
  hex_string16 b x = Ret r -> holds r t -> hex_string16 b' y = Ret r' -> holds r' t -> x = y.
Proof.
  intros L L' X Y E H E' H'. destruct C76_hex as (S & _).
  destruct (S b x L X) as (u & tu & Eu & _ & Hu & _ & Tu). destruct (S b' y L' Y) as (w & tw & Ew & _ & Hw & _ & Tw).
  rewrite E in Eu. injection Eu as <-. rewrite E' in Ew. injection Ew as <-.
  assert (tu = t) as -> by (rewrite <- (proj2 (holds_nul _ _ Hu)), <- (proj2 (holds_nul _ _ H)); reflexivity).
  assert (tw = t) as -> by (rewrite <- (proj2 (holds_nul _ _ Hw)), <- (proj2 (holds_nul _ _ H')); reflexivity).
  pose proof (hex_text_unique _ _ Tu _ Tw) as Q. change (4 * Z.of_nat 16) with 64 in Q. rewrite !Z.mod_small in Q by lia. exact Q.
Qed.
Print Assumptions C76_injective.

Example C76_e1 : hex_string8 (repeat 7 16) 0xDEADBE05 = Ret (`"DEADBE05" ++ 0 :: repeat 7 7) /\
  hex_string2 (repeat 7 4) 0x1A5 = Ret (`"A5" ++ [0; 7]) /\ hex_text (`"A5") 165.
Proof.
  split; [reflexivity|]. split; [reflexivity|]. change (`"A5") with (([] ++ [65]) ++ [53]). change 165 with (16 * (16 * 0 + 10) + 5).
  repeat constructor; unfold hex_char; lia.
Qed.

(** ** C77: types *)

(** A text that is made a type and back is cut to four characters. *)
Theorem C77_text (p s b : list Z) : holds p s -> bytes s -> length b = 5%nat ->
  exists v b', string_to_type p = Ret v /\ type_number s v /\ type_to_string b v = Ret b' /\ holds b' (firstn 4 s).
Proof.
  intros H B L. destruct (string_to_type_ok p s H B) as (v & E & T). exists v.
  destruct b as [|w [|x [|y [|z [|e [|]]]]]]; try discriminate. clear L.
  destruct H as (NF & _). unfold type_to_string.
  assert (Z0 : is_byte 0) by (unfold is_byte; lia).
  assert (G : forall a b c d, is_byte a -> is_byte b -> is_byte c -> is_byte d -> a <> 0 ->
    v = a * 2 ^ 24 + b * 2 ^ 16 + c * 2 ^ 8 + d -> exists b',
    (let c0 := Z.shiftr v 24 in if negb (c0 =? 0) then fix_four [w; x; y; z; e] (byte_of c0) (byte_of (Z.shiftr v 16)) (byte_of (Z.shiftr v 8)) (byte_of v)
     else fix_four [w; x; y; z; e] (byte_of (Z.shiftr v 16)) (byte_of (Z.shiftr v 8)) (byte_of v) 0) = Ret b' /\ b' = [a; b; c; d; 0]).
  { intros a b c d A Bb C D N V. destruct (byte_parts a b c d A Bb C D) as (P1 & P2 & P3 & P4). rewrite <- V in *.
    cbv zeta. rewrite P1, P2, P3, P4. destruct (Z.eqb_spec a 0); [congruence|]. simpl.
    replace (byte_of a) with a by (symmetry; apply Z.mod_small; exact A). apply fix_four_ok. }
  pose proof T as (a & b & c & d & F & V). destruct s as [|s1 [|s2 [|s3 [|s4 s]]]]; cbn [app firstn] in F; injection F as <- <- <- <-.
  - exists [0; 0; 0; 0; 0]. split; [exact E|]. split; [exact T|]. subst v. split; [reflexivity|]. split; [constructor|now exists [0; 0; 0; 0]].
  - inversion B; subst. inversion NF; subst. destruct (G s1 0 0 0) as (b' & Eb & ->); auto.
    eexists. split; [exact E|]. split; [exact T|]. split; [exact Eb|]. split; [exact NF|now exists [0; 0; 0]].
  - inversion B as [|? ? B1 B']; subst. inversion B' as [|? ? B2 B'']; subst. inversion NF; subst. destruct (G s1 s2 0 0) as (b' & Eb & ->); auto.
    eexists. split; [exact E|]. split; [exact T|]. split; [exact Eb|]. split; [exact NF|now exists [0; 0]].
  - inversion B as [|? ? B1 B']; subst. inversion B' as [|? ? B2 B'']; subst. inversion B'' as [|? ? B3 B3']; subst.
    inversion NF; subst. destruct (G s1 s2 s3 0) as (b' & Eb & ->); auto.
    eexists. split; [exact E|]. split; [exact T|]. split; [exact Eb|]. split; [exact NF|now exists [0]].
  - inversion B as [|? ? B1 B']; subst. inversion B' as [|? ? B2 B'']; subst. inversion B'' as [|? ? B3 B3']; subst.
    inversion B3' as [|? ? B4 B4']; subst. inversion NF as [|? ? N1 NF1]; subst. destruct (G s1 s2 s3 s4) as (b' & Eb & ->); auto.
    eexists. split; [exact E|]. split; [exact T|]. split; [exact Eb|].
    inversion NF1 as [|? ? N2 NF2]; subst. inversion NF2 as [|? ? N3 NF3]; subst. inversion NF3; subst.
    split; [repeat constructor; auto|now exists []].
Qed.
Print Assumptions C77_text.

(** Full statement: a type that is made a text and back is unchanged. False when the
    highest byte is zero and the type is not (the text has three characters), or a
    zero byte precedes one that is not zero. *)
Theorem C77_refuted : exists b', type_to_string [0; 0; 0; 0; 0] 0x414243 = Ret b' /\ string_to_type b' = Ret 0x41424300.
Proof. eexists. split; reflexivity. Qed.
Print Assumptions C77_refuted.

(** It holds exactly for the types of texts. *)
Theorem C77_type_partial (v : Z) (b : list Z) : 0 <= v < 2 ^ 32 -> length b = 5%nat ->
  exists b', type_to_string b v = Ret b' /\
    (string_to_type b' = Ret v <-> exists s, nul_free s /\ bytes s /\ type_number s v).
Proof.
  intros V L.
  assert (X : exists b', type_to_string b v = Ret b' /\ exists t, holds b' t /\ bytes t).
  { destruct b as [|w [|x [|y [|z [|e [|]]]]]]; try discriminate. unfold type_to_string. cbv zeta.
    assert (K : forall n1 n2 n3 n4, exists t, holds [byte_of n1; byte_of n2; byte_of n3; byte_of n4; 0] t /\ bytes t).
    { intros. exists (cstr [byte_of n1; byte_of n2; byte_of n3; byte_of n4; 0]).
      assert (R : forall n, is_byte (byte_of n)) by (intros; unfold is_byte, byte_of; apply Z.mod_pos_bound; lia).
      assert (I : In 0 [byte_of n1; byte_of n2; byte_of n3; byte_of n4; 0]) by (simpl; tauto).
      destruct (cstr_nul _ I) as (r & Er & Nf). split; [split; [exact Nf|now exists r]|].
      apply Forall_forall. intros c Hc. assert (Hc' : In c [byte_of n1; byte_of n2; byte_of n3; byte_of n4; 0]).
      { rewrite Er. apply in_or_app. now left. }
      simpl in Hc'. destruct Hc' as [<-|[<-|[<-|[<-|[<-|[]]]]]]; auto. unfold is_byte. lia. }
    destruct (negb (Z.shiftr v 24 =? 0)); eexists; (split; [reflexivity|]).
    - apply K.
    - apply (K _ _ _ 0). }
  destruct X as (b' & E & t & Ht & Bt). exists b'. split; [exact E|]. split.
  - intros S. destruct (string_to_type_ok b' t Ht Bt) as (v' & E' & T). rewrite S in E'. injection E' as <-.
    exists t. split; [apply Ht|]. auto.
  - intros (s & NF & B & T). assert (H : holds (s ++ [0]) s) by (split; [exact NF|now exists []]).
    destruct (C77_text (s ++ [0]) s b H B L) as (v' & b2 & E1 & T' & E2 & H2).
    assert (v' = v) as ->.
    { destruct T as (a1 & a2 & a3 & a4 & F1 & ->). destruct T' as (c1 & c2 & c3 & c4 & F2 & ->).
      rewrite F1 in F2. injection F2 as <- <- <- <-. reflexivity. }
    rewrite E in E2. injection E2 as <-.
    destruct (string_to_type_ok b' (firstn 4 s) H2) as (v2 & Es & T2).
    { apply Forall_forall. intros c Hc. apply (proj1 (Forall_forall _ _) B). rewrite <- (firstn_skipn 4 s). apply in_or_app. now left. }
    rewrite Es. f_equal. destruct T as (a1 & a2 & a3 & a4 & F1 & ->). destruct T2 as (c1 & c2 & c3 & c4 & F2 & ->).
    assert (Q : firstn 4 (firstn 4 s ++ [0; 0; 0; 0]) = firstn 4 (s ++ [0; 0; 0; 0])).
    { destruct s as [|? [|? [|? [|? ?]]]]; reflexivity. }
    rewrite Q, F1 in F2. injection F2 as <- <- <- <-. reflexivity.
Qed.
Print Assumptions C77_type_partial.

Example C77_e1 : string_to_type (`"ABCDE" ++ [0]) = Ret 0x41424344 /\ type_to_string [9; 9; 9; 9; 9] 0x41424344 = Ret (`"ABCD" ++ [0]) /\
  type_to_string [9; 9; 9; 9; 9] 0x41420000 = Ret [65; 66; 0; 0; 0] /\ type_number (`"AB") 0x41420000.
Proof. repeat split; try reflexivity. exists 65, 66, 0, 0. split; reflexivity. Qed.

(** The text with the hexadecimal number and the characters. *)
Theorem C77_hex_text (b b8 b4 : list Z) (v : Z) : length b = 32%nat -> length b8 = 16%nat -> length b4 = 5%nat -> 0 <= v < 2 ^ 32 ->
  exists r h t r4, type_to_hex_char_string b b8 b4 v = Ret r /\ length r = 32%nat /\
    holds r (`"0x" ++ h ++ `" '" ++ t ++ `"'") /\ hex_text h v /\ length h = 8%nat /\ type_to_string b4 v = Ret r4 /\ holds r4 t.
Proof.
  intros L L8 L4 V. unfold type_to_hex_char_string.
  destruct (fix_step_ok 31 (OpAssign [48; 120; 0]) b [] L ltac:(simpl; tauto) ltac:(now left)) as (s1 & m1 & E1 & K1 & M1 & H1).
  cbn [fix_step] in E1. rewrite E1. cbn [bind]. inversion M1; subst.
  destruct C76_hex as (_ & S & _). destruct (S b8 v L8 V) as (h1 & h & Eh & _ & Hh & Lh & Th). rewrite Eh. cbn [bind].
  change (4 * Z.of_nat 8) with 32 in Th. rewrite Z.mod_small in Th by lia.
  pose proof (holds_nul _ _ Hh) as (Ih & Ch).
  destruct (fix_step_ok 31 (OpAppend h1) s1 _ K1 Ih (or_intror H1)) as (s2 & m2 & E2 & K2 & M2 & H2).
  cbn [fix_step] in E2. rewrite E2. cbn [bind]. inversion M2; subst. rewrite firstn_all2 in H2.
  2: { rewrite app_length, firstn_length. simpl. rewrite Lh. lia. }
  destruct (fix_step_ok 31 (OpAppend [32; 39; 0]) s2 _ K2 ltac:(simpl; tauto) (or_intror H2)) as (s3 & m3 & E3 & K3 & M3 & H3).
  cbn [fix_step] in E3. rewrite E3. cbn [bind]. inversion M3; subst. rewrite firstn_all2 in H3.
  2: { rewrite !app_length, firstn_length. simpl. rewrite Lh. lia. }
  assert (X : exists b', type_to_string b4 v = Ret b' /\ length b' = 5%nat /\ exists t, holds b' t).
  { destruct b4 as [|w [|x [|y [|z [|e [|]]]]]]; try discriminate. unfold type_to_string. cbv zeta.
    destruct (negb (Z.shiftr v 24 =? 0)); eexists; (split; [reflexivity|]); (split; [reflexivity|]).
    all: match goal with |- exists t, holds ?l t => exists (cstr l); assert (I : In 0 l) by (simpl; tauto); destruct (cstr_nul _ I) as (r & Er & Nf); split; [exact Nf|now exists r] end. }
  destruct X as (r4 & E4 & L4' & t & Ht). rewrite E4. cbn [bind]. pose proof (holds_nul _ _ Ht) as (It & Ct). pose proof (holds_length _ _ Ht) as Lt.
  destruct (fix_step_ok 31 (OpAppend r4) s3 _ K3 It (or_intror H3)) as (s5 & m5 & E5 & K5 & M5 & H5).
  cbn [fix_step] in E5. rewrite E5. cbn [bind]. inversion M5; subst. rewrite firstn_all2 in H5.
  2: { rewrite !app_length, firstn_length. simpl. rewrite Lh. lia. }
  destruct (fix_step_ok 31 (OpAppendChar 39) s5 _ K5 ltac:(simpl; lia) (or_intror H5)) as (s6 & m6 & E6 & K6 & M6 & H6).
  cbn [fix_step] in E6. inversion M6; subst. rewrite firstn_all2 in H6.
  2: { rewrite !app_length, firstn_length. simpl. rewrite Lh. lia. }
  exists s6, (cstr h1), (cstr r4), r4. split; [exact E6|]. split; [exact K6|]. split; [|auto].
  rewrite <- !app_assoc in H6. exact H6.
Qed.
Print Assumptions C77_hex_text.

Example C77_e2 : type_to_hex_char_string (repeat 7 32) (repeat 7 16) (repeat 7 5) 0x41424344 =
  Ret (`"0x41424344 'ABCD'" ++ 0 :: repeat 7 14).
Proof. reflexivity. Qed.
