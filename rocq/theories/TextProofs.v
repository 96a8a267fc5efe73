(** * Proofs about the UTF-8 functions. *)

From Verif Require Import Base TextModel SpecUtf8.

(** ** Bits as arithmetic *)

Lemma lor_add n a c : 0 <= n -> 0 <= c < 2 ^ n -> Z.lor (a * 2 ^ n) c = a * 2 ^ n + c.
Proof.
  intros Hn Hc. rewrite <- Z.lxor_lor, Z.add_nocarry_lxor; auto.
  - apply Z.bits_inj'. intros i Hi. rewrite Z.land_spec, Z.bits_0.
    destruct (Z.lt_ge_cases i n).
    + rewrite Z.mul_pow2_bits_low by lia. reflexivity.
    + rewrite <- (Z.mod_small c (2 ^ n)) by lia.
      rewrite Z.mod_pow2_bits_high by lia. now rewrite andb_false_r.
  - apply Z.bits_inj'. intros i Hi. rewrite Z.land_spec, Z.bits_0.
    destruct (Z.lt_ge_cases i n).
    + rewrite Z.mul_pow2_bits_low by lia. reflexivity.
    + rewrite <- (Z.mod_small c (2 ^ n)) by lia.
      rewrite Z.mod_pow2_bits_high by lia. now rewrite andb_false_r.
Qed.

(** Decide a property of all bytes by evaluation. *)
Lemma byte_sweep (f : Z -> bool) :
  forallb f (map Z.of_nat (seq 0 256)) = true -> forall x, is_byte x -> f x = true.
Proof.
  intros H x Hx. rewrite forallb_forall in H. apply H.
  apply in_map_iff. exists (Z.to_nat x). unfold is_byte in Hx.
  split; [lia|]. apply in_seq. lia.
Qed.

Ltac sweep f := 
  let H := fresh in
  assert (H : forall x, is_byte x -> f x = true) by (apply byte_sweep; vm_compute; reflexivity).

Lemma cont_byte x : is_byte x -> (Z.land x 0xC0 =? 0x80) = ((128 <=? x) && (x <? 192)).
Proof.
  sweep (fun x => Bool.eqb (Z.land x 0xC0 =? 0x80) ((128 <=? x) && (x <? 192))).
  intros Hx. apply H in Hx. now apply Bool.eqb_prop in Hx.
Qed.

Lemma land3F x : 0 <= x -> Z.land x 0x3F = x mod 64.
Proof. intros. change 0x3F with (Z.ones 6). now rewrite Z.land_ones by lia. Qed.

Lemma shl12 x : is_byte x -> Z.land (Z.shiftl x 12) 0x00F000 = (x mod 16) * 2 ^ 12.
Proof.
  sweep (fun x => Z.land (Z.shiftl x 12) 0x00F000 =? (x mod 16) * 2 ^ 12).
  intros Hx. apply H in Hx. lia.
Qed.
Lemma shl6 x : is_byte x -> Z.land (Z.shiftl x 6) 0x000FC0 = (x mod 64) * 2 ^ 6.
Proof.
  sweep (fun x => Z.land (Z.shiftl x 6) 0x000FC0 =? (x mod 64) * 2 ^ 6).
  intros Hx. apply H in Hx. lia.
Qed.
Lemma shl6' x : is_byte x -> Z.land (Z.shiftl x 6) 0x0007C0 = (x mod 32) * 2 ^ 6.
Proof.
  sweep (fun x => Z.land (Z.shiftl x 6) 0x0007C0 =? (x mod 32) * 2 ^ 6).
  intros Hx. apply H in Hx. lia.
Qed.
Lemma shl18 x : is_byte x -> Z.land (Z.shiftl x 18) 0x1C0000 = (x mod 8) * 2 ^ 18.
Proof.
  sweep (fun x => Z.land (Z.shiftl x 18) 0x1C0000 =? (x mod 8) * 2 ^ 18).
  intros Hx. apply H in Hx. lia.
Qed.
Lemma shl12' x : is_byte x -> Z.land (Z.shiftl x 12) 0x03F000 = (x mod 64) * 2 ^ 12.
Proof.
  sweep (fun x => Z.land (Z.shiftl x 12) 0x03F000 =? (x mod 64) * 2 ^ 12).
  intros Hx. apply H in Hx. lia.
Qed.

Ltac pow2 := change (2 ^ 6) with 64 in *; change (2 ^ 12) with 4096 in *; change (2 ^ 18) with 262144 in *.

Lemma x2_val a b : is_byte a -> is_byte b ->
  Z.lor (Z.land (Z.shiftl a 6) 0x0007C0) (Z.land b 0x00003F) = (a mod 32) * 64 + b mod 64.
Proof.
  intros Ha Hb. unfold is_byte in *. rewrite shl6', land3F by (auto; lia).
  rewrite lor_add; [reflexivity|lia|]. pow2. apply Z.mod_pos_bound. lia.
Qed.

Lemma x3_val a b c : is_byte a -> is_byte b -> is_byte c ->
  Z.lor (Z.lor (Z.land (Z.shiftl a 12) 0x00F000) (Z.land (Z.shiftl b 6) 0x000FC0)) (Z.land c 0x00003F)
  = (a mod 16) * 4096 + (b mod 64) * 64 + c mod 64.
Proof.
  intros Ha Hb Hc. unfold is_byte in *. rewrite shl12, shl6, land3F by (auto; lia).
  assert (0 <= b mod 64 < 64) by (apply Z.mod_pos_bound; lia).
  assert (0 <= c mod 64 < 64) by (apply Z.mod_pos_bound; lia).
  rewrite lor_add; [|lia|pow2; lia].
  replace (a mod 16 * 2 ^ 12 + b mod 64 * 2 ^ 6) with ((a mod 16 * 64 + b mod 64) * 2 ^ 6) by (pow2; lia).
  rewrite lor_add; [pow2; lia|lia|pow2; lia].
Qed.

Lemma x4_val a b c d : is_byte a -> is_byte b -> is_byte c -> is_byte d ->
  Z.lor (Z.lor (Z.lor (Z.land (Z.shiftl a 18) 0x1C0000) (Z.land (Z.shiftl b 12) 0x03F000))
               (Z.land (Z.shiftl c 6) 0x000FC0)) (Z.land d 0x00003F)
  = (a mod 8) * 262144 + (b mod 64) * 4096 + (c mod 64) * 64 + d mod 64.
Proof.
  intros Ha Hb Hc Hd. unfold is_byte in *. rewrite shl18, shl12', shl6, land3F by (auto; lia).
  assert (0 <= b mod 64 < 64) by (apply Z.mod_pos_bound; lia).
  assert (0 <= c mod 64 < 64) by (apply Z.mod_pos_bound; lia).
  assert (0 <= d mod 64 < 64) by (apply Z.mod_pos_bound; lia).
  rewrite lor_add; [|lia|pow2; lia].
  replace (a mod 8 * 2 ^ 18 + b mod 64 * 2 ^ 12) with ((a mod 8 * 64 + b mod 64) * 2 ^ 12) by (pow2; lia).
  rewrite lor_add; [|lia|pow2; lia].
  replace ((a mod 8 * 64 + b mod 64) * 2 ^ 12 + c mod 64 * 2 ^ 6)
    with (((a mod 8 * 64 + b mod 64) * 64 + c mod 64) * 2 ^ 6) by (pow2; lia).
  rewrite lor_add; [pow2; lia|lia|pow2; lia].
Qed.

Lemma u32_small x : 0 <= x < 4294967296 -> u32 x = x.
Proof. intros. unfold u32. now rewrite Z.mod_small. Qed.

Lemma u32_lt x n : -4294967296 + n <= x < 4294967296 -> 0 <= n ->
  (u32 x <? n) = ((0 <=? x) && (x <? n)).
Proof.
  intros Hx Hn. unfold u32.
  destruct (Z.leb_spec 0 x).
  - rewrite Z.mod_small by lia. reflexivity.
  - replace (x mod 4294967296) with (x + 4294967296).
    + simpl. lia.
    + apply Z.mod_unique with (-1); lia.
Qed.

(** ** utf8 facts *)

Lemma utf8_bytes cp : code_point cp -> bytes (utf8 cp).
Proof.
  unfold code_point, utf8, bytes. intros H.
  assert (0 <= cp mod 64 < 64) by (apply Z.mod_pos_bound; lia).
  assert (0 <= cp / 64 mod 64 < 64) by (apply Z.mod_pos_bound; lia).
  assert (0 <= cp / 4096 mod 64 < 64) by (apply Z.mod_pos_bound; lia).
  destruct (Z.ltb_spec cp 128); [repeat constructor; lia|].
  destruct (Z.ltb_spec cp 2048).
  { assert (2 <= cp / 64 < 32) by (split; [apply Z.div_le_lower_bound|apply Z.div_lt_upper_bound]; lia).
    unfold is_byte; repeat constructor; lia. }
  destruct (Z.ltb_spec cp 65536).
  { assert (0 <= cp / 4096 < 16) by (split; [apply Z.div_le_lower_bound|apply Z.div_lt_upper_bound]; lia).
    unfold is_byte; repeat constructor; lia. }
  assert (0 <= cp / 262144 < 5) by (split; [apply Z.div_le_lower_bound|apply Z.div_lt_upper_bound]; lia).
  unfold is_byte; repeat constructor; lia.
Qed.

Lemma utf8_length cp : length (utf8 cp) = get_unicode_char_byte_count cp \/ 0x10FFFF < cp.
Proof.
  unfold utf8, get_unicode_char_byte_count.
  destruct (Z.ltb_spec cp 128), (Z.leb_spec cp 127); try lia; [auto|].
  destruct (Z.ltb_spec cp 2048), (Z.leb_spec cp 2047); try lia; [auto|].
  destruct (Z.ltb_spec cp 65536), (Z.leb_spec cp 65535); try lia; [auto|].
  destruct (Z.leb_spec cp 1114111); [auto|lia].
Qed.

Lemma utf8_length_bounds cp : (1 <= length (utf8 cp) <= 4)%nat.
Proof.
  unfold utf8. destruct (cp <? 128), (cp <? 2048), (cp <? 65536); simpl; lia.
Qed.

(** ** WriteUnicodeChar writes UTF-8 *)

Lemma or80 x : 0 <= x < 64 -> Z.lor x 0x80 = 0x80 + x.
Proof.
  intros. rewrite Z.lor_comm. change 0x80 with (2 * 2 ^ 6). rewrite lor_add; [reflexivity|lia|pow2; lia].
Qed.

Lemma write_utf8 cp : code_point cp -> write_unicode_char cp = utf8 cp.
Proof.
  intros H. unfold code_point in H. unfold write_unicode_char, utf8.
  destruct (Z.leb_spec cp 127), (Z.ltb_spec cp 128); try lia; [reflexivity|].
  assert (0 <= cp mod 64 < 64) by (apply Z.mod_pos_bound; lia).
  assert (0 <= cp / 64 mod 64 < 64) by (apply Z.mod_pos_bound; lia).
  assert (0 <= cp / 4096 mod 64 < 64) by (apply Z.mod_pos_bound; lia).
  assert (E6 : Z.shiftr cp 6 = cp / 64) by (rewrite Z.shiftr_div_pow2 by lia; reflexivity).
  assert (E12 : Z.shiftr cp 12 = cp / 4096) by (rewrite Z.shiftr_div_pow2 by lia; reflexivity).
  assert (E18 : Z.shiftr cp 18 = cp / 262144) by (rewrite Z.shiftr_div_pow2 by lia; reflexivity).
  rewrite E6, E12, E18.
  assert (0 <= cp / 64) by (apply Z.div_pos; lia).
  assert (0 <= cp / 4096) by (apply Z.div_pos; lia).
  assert (0 <= cp / 262144) by (apply Z.div_pos; lia).
  rewrite !land3F by lia. rewrite !or80 by lia.
  destruct (Z.leb_spec cp 2047), (Z.ltb_spec cp 2048); try lia.
  { assert (cp / 64 < 32) by (apply Z.div_lt_upper_bound; lia).
    change 0x1F with (Z.ones 5). rewrite Z.land_ones by lia. change (2 ^ 5) with 32.
    rewrite Z.mod_small by lia. rewrite Z.lor_comm. change 0xC0 with (6 * 2 ^ 5).
    rewrite lor_add by lia. reflexivity. }
  destruct (Z.leb_spec cp 65535), (Z.ltb_spec cp 65536); try lia.
  { assert (cp / 4096 < 16) by (apply Z.div_lt_upper_bound; lia).
    change 0x0F with (Z.ones 4). rewrite Z.land_ones by lia. change (2 ^ 4) with 16.
    rewrite Z.mod_small by lia. rewrite Z.lor_comm. change 0xE0 with (14 * 2 ^ 4).
    rewrite lor_add by lia. reflexivity. }
  destruct (Z.leb_spec cp 1114111); try lia.
  assert (cp / 262144 < 5) by (apply Z.div_lt_upper_bound; lia).
  change 0x07 with (Z.ones 3). rewrite Z.land_ones by lia. change (2 ^ 3) with 8.
  rewrite Z.mod_small by lia. rewrite Z.lor_comm. change 0xF0 with (30 * 2 ^ 3).
  rewrite lor_add by lia. reflexivity.
Qed.

(** ** ValidateUnicodeChar *)

Lemma mod_of x m d : 0 <= d < m -> (m * x + d) mod m = d.
Proof. intros. rewrite Z.mul_comm, Z.add_comm, Z.mod_add by lia. apply Z.mod_small; auto. Qed.

(** Decomposition of a code point into its base-64 digits. *)
Lemma cp_digits cp : 0 <= cp ->
  cp = cp / 262144 * 262144 + cp / 4096 mod 64 * 4096 + cp / 64 mod 64 * 64 + cp mod 64 /\
  0 <= cp mod 64 < 64 /\ 0 <= cp / 64 mod 64 < 64 /\ 0 <= cp / 4096 mod 64 < 64 /\
  cp / 4096 = cp / 262144 * 64 + cp / 4096 mod 64 /\ cp / 64 = cp / 4096 * 64 + cp / 64 mod 64 /\ 0 <= cp / 262144.
Proof.
  intros H.
  pose proof (Z.div_mod cp 64 ltac:(lia)).
  pose proof (Z.div_mod (cp / 64) 64 ltac:(lia)).
  pose proof (Z.div_mod (cp / 4096) 64 ltac:(lia)).
  assert (E1 : cp / 64 / 64 = cp / 4096) by (rewrite Z.div_div by lia; reflexivity).
  assert (E2 : cp / 4096 / 64 = cp / 262144) by (rewrite Z.div_div by lia; reflexivity).
  pose proof (Z.mod_pos_bound cp 64 ltac:(lia)).
  pose proof (Z.mod_pos_bound (cp / 64) 64 ltac:(lia)).
  pose proof (Z.mod_pos_bound (cp / 4096) 64 ltac:(lia)).
  assert (0 <= cp / 262144) by (apply Z.div_pos; lia).
  rewrite E1, E2 in *. lia.
Qed.

Lemma mod_shift a m k : 0 < m -> 0 <= a < m -> (k * m + a) mod m = a.
Proof. intros. rewrite Z.add_comm, Z.mod_add by lia. apply Z.mod_small; auto. Qed.

Lemma validate_complete cp rest : code_point cp ->
  validate_unicode_char (utf8 cp ++ rest) = Ret (length (utf8 cp)) /\
  read_unicode_char (utf8 cp ++ rest) = Ret (length (utf8 cp), cp).
Proof.
  intros H. pose proof (utf8_bytes cp H) as HB. unfold code_point in H.
  destruct (cp_digits cp) as (D & D0 & D1 & D2 & D3 & D4 & D5); [lia|].
  unfold validate_unicode_char, read_unicode_char, utf8 in *.
  destruct (Z.ltb_spec cp 128).
  { simpl. replace (cp <? 128) with true by lia. auto. }
  destruct (Z.ltb_spec cp 2048).
  { simpl app. cbn [rd nth_error bind length].
    repeat match goal with X : bytes (_ :: _) |- _ => inversion X; clear X; subst | X : Forall is_byte (_ :: _) |- _ => inversion X; clear X; subst end.
    replace (192 + cp / 64 <? 128) with false by lia.
    rewrite u32_lt by (unfold is_byte in *; lia).
    replace ((0 <=? 192 + cp / 64 - 194) && (192 + cp / 64 - 194 <? 51)) with true by lia.
    rewrite cont_byte by auto.
    replace ((128 <=? 128 + cp mod 64) && (128 + cp mod 64 <? 192)) with true by lia.
    replace (192 + cp / 64 <? 224) with true by lia.
    split; [reflexivity|]. rewrite x2_val by auto. f_equal. f_equal.
    change 192 with (6 * 32). change 128 with (2 * 64). rewrite !mod_shift by lia. lia. }
  destruct (Z.ltb_spec cp 65536).
  { simpl app. cbn [rd nth_error bind length].
    repeat match goal with X : bytes (_ :: _) |- _ => inversion X; clear X; subst | X : Forall is_byte (_ :: _) |- _ => inversion X; clear X; subst end.
    replace (224 + cp / 4096 <? 128) with false by lia.
    rewrite u32_lt by (unfold is_byte in *; lia).
    replace ((0 <=? 224 + cp / 4096 - 194) && (224 + cp / 4096 - 194 <? 51)) with true by lia.
    rewrite !cont_byte by auto.
    replace ((128 <=? 128 + cp / 64 mod 64) && (128 + cp / 64 mod 64 <? 192)) with true by lia.
    replace ((128 <=? 128 + cp mod 64) && (128 + cp mod 64 <? 192)) with true by lia.
    replace (224 + cp / 4096 <? 224) with false by lia.
    replace (224 + cp / 4096 <? 240) with true by lia.
    rewrite x3_val by auto.
    replace ((224 + cp / 4096) mod 16 * 4096 + (128 + cp / 64 mod 64) mod 64 * 64 + (128 + cp mod 64) mod 64) with cp.
    2:{ change 224 with (14 * 16). change 128 with (2 * 64). rewrite !mod_shift by lia. lia. }
    rewrite u32_lt by lia. replace ((0 <=? cp - 2048) && (cp - 2048 <? 63488)) with true by lia.
    auto. }
  { simpl app. cbn [rd nth_error bind length].
    repeat match goal with X : bytes (_ :: _) |- _ => inversion X; clear X; subst | X : Forall is_byte (_ :: _) |- _ => inversion X; clear X; subst end.
    replace (240 + cp / 262144 <? 128) with false by lia.
    rewrite u32_lt by (unfold is_byte in *; lia).
    replace ((0 <=? 240 + cp / 262144 - 194) && (240 + cp / 262144 - 194 <? 51)) with true by lia.
    rewrite !cont_byte by auto.
    replace ((128 <=? 128 + cp / 64 mod 64) && (128 + cp / 64 mod 64 <? 192)) with true by lia.
    replace ((128 <=? 128 + cp mod 64) && (128 + cp mod 64 <? 192)) with true by lia.
    replace ((128 <=? 128 + cp / 4096 mod 64) && (128 + cp / 4096 mod 64 <? 192)) with true by lia.
    replace (240 + cp / 262144 <? 224) with false by lia.
    replace (240 + cp / 262144 <? 240) with false by lia.
    rewrite x4_val by auto.
    replace ((240 + cp / 262144) mod 8 * 262144 + (128 + cp / 4096 mod 64) mod 64 * 4096 +
             (128 + cp / 64 mod 64) mod 64 * 64 + (128 + cp mod 64) mod 64) with cp.
    2:{ change 240 with (30 * 8). change 128 with (2 * 64). rewrite !mod_shift by lia. lia. }
    rewrite u32_lt by lia. replace ((0 <=? cp - 65536) && (cp - 65536 <? 1048576)) with true by lia.
    auto. }
Qed.

Ltac dest_rd p :=
  destruct p as [|? p]; [simpl; auto; try discriminate|].

(** A validated sequence is the UTF-8 pattern of a code point. *)
Lemma validate_sound p n : bytes p -> validate_unicode_char p = Ret n -> n <> 0%nat ->
  exists cp rest, code_point cp /\ p = utf8 cp ++ rest /\ n = length (utf8 cp).
Proof.
  intros HB H Hn. unfold validate_unicode_char in H.
  destruct p as [|c1 p]; [discriminate|]. cbn [rd nth_error bind] in H.
  inversion HB as [|? ? B1 HB1]; subst. unfold is_byte in B1.
  destruct (Z.ltb_spec c1 128).
  { injection H as <-. exists c1, p. unfold code_point, utf8.
    replace (c1 <? 128) with true by lia. repeat split; simpl; lia. }
  rewrite u32_lt in H by lia.
  destruct ((0 <=? c1 - 194) && (c1 - 194 <? 51)) eqn:E1; [|congruence].
  destruct p as [|c2 p]; [discriminate|]. cbn [rd nth_error bind] in H.
  inversion HB1 as [|? ? B2 HB2]; subst. rewrite cont_byte in H by auto. unfold is_byte in B2.
  destruct ((128 <=? c2) && (c2 <? 192)) eqn:E2; [|congruence].
  destruct (Z.ltb_spec c1 224).
  { injection H as <-. exists ((c1 - 192) * 64 + (c2 - 128)), p.
    set (cp := (c1 - 192) * 64 + (c2 - 128)).
    assert (Q : cp / 64 = c1 - 192) by (symmetry; apply Z.div_unique with (c2 - 128); lia).
    assert (M : cp mod 64 = c2 - 128) by (symmetry; apply Z.mod_unique with (c1 - 192); lia).
    unfold code_point, utf8. replace (cp <? 128) with false by lia. replace (cp <? 2048) with true by lia.
    rewrite Q, M. split; [lia|]. split; [|reflexivity]. simpl. repeat f_equal; lia. }
  destruct p as [|c3 p]; [discriminate|]. cbn [rd nth_error bind] in H.
  inversion HB2 as [|? ? B3 HB3]; subst. rewrite cont_byte in H by auto. unfold is_byte in B3.
  destruct ((128 <=? c3) && (c3 <? 192)) eqn:E3; [|congruence].
  assert (M2 : c2 mod 64 = c2 - 128) by (symmetry; apply Z.mod_unique with 2; lia).
  assert (M3 : c3 mod 64 = c3 - 128) by (symmetry; apply Z.mod_unique with 2; lia).
  destruct (Z.ltb_spec c1 240).
  { rewrite x3_val in H by (unfold is_byte; lia).
    assert (M1 : c1 mod 16 = c1 - 224) by (symmetry; apply Z.mod_unique with 14; lia).
    rewrite M1, M2, M3 in H. set (cp := (c1 - 224) * 4096 + (c2 - 128) * 64 + (c3 - 128)) in *.
    rewrite u32_lt in H by lia.
    destruct ((0 <=? cp - 2048) && (cp - 2048 <? 63488)) eqn:E4; [|congruence].
    injection H as <-. exists cp, p.
    assert (Q1 : cp / 4096 = c1 - 224) by (symmetry; apply Z.div_unique with ((c2 - 128) * 64 + (c3 - 128)); lia).
    assert (Q2 : cp / 64 = (c1 - 224) * 64 + (c2 - 128)) by (symmetry; apply Z.div_unique with (c3 - 128); lia).
    assert (N1 : cp mod 64 = c3 - 128) by (symmetry; apply Z.mod_unique with ((c1 - 224) * 64 + (c2 - 128)); lia).
    assert (N2 : cp / 64 mod 64 = c2 - 128) by (rewrite Q2; symmetry; apply Z.mod_unique with (c1 - 224); lia).
    unfold code_point, utf8. replace (cp <? 128) with false by lia. replace (cp <? 2048) with false by lia.
    replace (cp <? 65536) with true by lia. rewrite Q1, N2, N1.
    split; [lia|]. split; [|reflexivity]. simpl. repeat f_equal; lia. }
  destruct p as [|c4 p]; [discriminate|]. cbn [rd nth_error bind] in H.
  inversion HB3 as [|? ? B4 HB4]; subst. rewrite cont_byte in H by auto. unfold is_byte in B4.
  destruct ((128 <=? c4) && (c4 <? 192)) eqn:E4; [|congruence].
  assert (M4 : c4 mod 64 = c4 - 128) by (symmetry; apply Z.mod_unique with 2; lia).
  rewrite x4_val in H by (unfold is_byte; lia).
  assert (M1 : c1 mod 8 = c1 - 240) by (symmetry; apply Z.mod_unique with 30; lia).
  rewrite M1, M2, M3, M4 in H.
  set (cp := (c1 - 240) * 262144 + (c2 - 128) * 4096 + (c3 - 128) * 64 + (c4 - 128)) in *.
  rewrite u32_lt in H by lia.
  destruct ((0 <=? cp - 65536) && (cp - 65536 <? 1048576)) eqn:E5; [|congruence].
  injection H as <-. exists cp, p.
  assert (Q1 : cp / 262144 = c1 - 240) by (symmetry; apply Z.div_unique with ((c2 - 128) * 4096 + (c3 - 128) * 64 + (c4 - 128)); lia).
  assert (Q2 : cp / 4096 = (c1 - 240) * 64 + (c2 - 128)) by (symmetry; apply Z.div_unique with ((c3 - 128) * 64 + (c4 - 128)); lia).
  assert (Q3 : cp / 64 = ((c1 - 240) * 64 + (c2 - 128)) * 64 + (c3 - 128)) by (symmetry; apply Z.div_unique with (c4 - 128); lia).
  assert (N1 : cp mod 64 = c4 - 128) by (symmetry; apply Z.mod_unique with (((c1 - 240) * 64 + (c2 - 128)) * 64 + (c3 - 128)); lia).
  assert (N2 : cp / 64 mod 64 = c3 - 128) by (rewrite Q3; symmetry; apply Z.mod_unique with ((c1 - 240) * 64 + (c2 - 128)); lia).
  assert (N3 : cp / 4096 mod 64 = c2 - 128) by (rewrite Q2; symmetry; apply Z.mod_unique with (c1 - 240); lia).
  unfold code_point, utf8. replace (cp <? 128) with false by lia. replace (cp <? 2048) with false by lia.
  replace (cp <? 65536) with false by lia. rewrite Q1, N2, N1, N3.
  split; [lia|]. split; [|reflexivity]. simpl. repeat f_equal; lia.
Qed.

(** ValidateUnicodeChar never reads past the terminator. *)
Lemma validate_safe p : terminated p -> bytes p -> exists n, validate_unicode_char p = Ret n /\ (n <= length p)%nat.
Proof.
  intros HT HB. unfold validate_unicode_char.
  destruct p as [|c1 p]; [apply terminated_nonnil in HT; congruence|].
  cbn [rd nth_error bind]. inversion HB as [|? ? B1 HB1]; subst. unfold is_byte in B1.
  destruct (Z.ltb_spec c1 128); [exists 1%nat; split; [auto|simpl; lia]|].
  rewrite u32_lt by lia.
  destruct ((0 <=? c1 - 194) && (c1 - 194 <? 51)) eqn:E1; [|exists 0%nat; split; [auto|lia]].
  apply terminated_tail in HT; [|lia].
  destruct p as [|c2 p]; [apply terminated_nonnil in HT; congruence|].
  cbn [rd nth_error bind]. inversion HB1 as [|? ? B2 HB2]; subst. rewrite cont_byte by auto.
  destruct ((128 <=? c2) && (c2 <? 192)) eqn:E2; [|exists 0%nat; split; [auto|lia]].
  destruct (Z.ltb_spec c1 224); [exists 2%nat; split; [auto|simpl; lia]|].
  apply terminated_tail in HT; [|lia].
  destruct p as [|c3 p]; [apply terminated_nonnil in HT; congruence|].
  cbn [rd nth_error bind]. inversion HB2 as [|? ? B3 HB3]; subst. rewrite cont_byte by auto.
  destruct ((128 <=? c3) && (c3 <? 192)) eqn:E3; [|exists 0%nat; split; [auto|lia]].
  destruct (Z.ltb_spec c1 240).
  { destruct (u32 _ <? _); [exists 3%nat|exists 0%nat]; split; auto; simpl; lia. }
  apply terminated_tail in HT; [|lia].
  destruct p as [|c4 p]; [apply terminated_nonnil in HT; congruence|].
  cbn [rd nth_error bind]. inversion HB3 as [|? ? B4 HB4]; subst. rewrite cont_byte by auto.
  destruct ((128 <=? c4) && (c4 <? 192)) eqn:E4; [|exists 0%nat; split; [auto|lia]].
  destruct (u32 _ <? _); [exists 4%nat|exists 0%nat]; split; auto; simpl; lia.
Qed.
