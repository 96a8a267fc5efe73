(** * Properties of the Unicode functions: C38, C56, C57, C58. *)

From Verif Require Import Base TextModel SpecUtf8 TextProofs LexProofs WideModel SpecWide WideProofs.

(** ** C38: conversions round trip *)

(** Reading what WriteUnicodeChar wrote gives the code point and the length. *)
Theorem C38_char (cp : Z) (rest : list Z) : code_point cp ->
  read_unicode_char (write_unicode_char cp ++ rest) = Ret (length (write_unicode_char cp), cp) /\
  get_unicode_char_byte_count cp = length (write_unicode_char cp) /\
  validate_unicode_char (write_unicode_char cp ++ rest) = Ret (length (write_unicode_char cp)).
Proof.
  intros H. rewrite write_utf8 by auto. destruct (validate_complete cp rest H) as [E1 E2]. repeat split; auto. now apply utf8_count.
Qed.
Print Assumptions C38_char.

Example C38_char_case : code_point 0x1F600 /\ write_unicode_char 0x1F600 = [0xF0; 0x9F; 0x98; 0x80].
Proof. split; [unfold code_point; lia|reflexivity]. Qed.

(** Valid UTF-8 [s] (as a C string at any place of an array) converted to UTF-16 in
    storage of GetWideTextCharCount + 1 units fills it exactly with the UTF-16
    encoding and a terminator; converted back in storage of GetUnicodeStringLength + 1
    bytes it gives exactly [s] and a terminator. *)
Theorem C38_round_trip (s rest : list Z) : valid_utf8 s -> nul_free s -> bytes (s ++ 0 :: rest) ->
  exists l n, s = encode8 l /\ Forall scalar l /\
    wide_text_char_count (S (length s)) (s ++ 0 :: rest) = Ret n /\ n = length (encode16 l) /\
    (forall w0, length w0 = S n ->
       string_to_wide (S (length s)) (s ++ 0 :: rest) w0 0 (Z.of_nat n) = Ret (encode16 l ++ [0])) /\
    unicode_string_length (encode16 l ++ [0]) = Ret (length s) /\
    (forall s0, length s0 = S (length s) ->
       wide_to_string (encode16 l ++ [0]) s0 0 (Z.of_nat (length s)) = Ret (s ++ [0])).
Proof.
  intros V HN HB. destruct (valid_decodes s V HN) as (l & D & E & F). exists l, (length (encode16 l)).
  pose proof (encode16_wdecodes l F) as W. destruct (wdecodes_units _ _ W) as [U _].
  assert (U0 : units (encode16 l ++ 0 :: [])) by (apply Forall_app; split; [exact U|repeat constructor; lia]).
  assert (FC : Forall code_point l) by (eapply Forall_impl; [|exact F]; intros a Ha; apply Ha).
  split; [auto|]. split; [eapply Forall_impl; [|exact F]; intros a Ha; apply Ha|].
  split; [apply wide_count_ok; auto|]. split; [auto|]. split; [|split].
  - intros w0 HL. pose proof (string_to_wide_ok l (S (length s)) s rest [] w0 (Z.of_nat (length (encode16 l))) D HB ltac:(lia)) as R.
    simpl length in R. rewrite reaching_all in R by (auto; lia). cbn [app] in R. rewrite R.
    replace (length (encode16 l) <? length w0)%nat with true by lia. unfold holding. rewrite skipn_all2 by lia. reflexivity.
  - rewrite (string_length_ok _ _ W []) by auto. now rewrite <- E.
  - intros s0 HL. pose proof (wide_to_string_ok _ _ W [] [] s0 (Z.of_nat (length s)) U0) as R.
    rewrite fitting_all in R by (rewrite <- E; lia). cbn [app length] in R. rewrite <- E in R. rewrite R.
    replace (length s <? length s0)%nat with true by lia. unfold holding. rewrite skipn_all2 by lia. reflexivity.
Qed.
Print Assumptions C38_round_trip.

Example C38_case : valid_utf8 [0x41; 0xC3; 0xA9; 0xF0; 0x9F; 0x98; 0x80] /\ nul_free [0x41; 0xC3; 0xA9; 0xF0; 0x9F; 0x98; 0x80] /\
  bytes ([0x41; 0xC3; 0xA9; 0xF0; 0x9F; 0x98; 0x80] ++ 0 :: [7; 8]) /\
  string_to_wide 8 [0x41; 0xC3; 0xA9; 0xF0; 0x9F; 0x98; 0x80; 0] [1; 1; 1; 1; 1] 0 4 = Ret [0x41; 0xE9; 0xD83D; 0xDE00; 0].
Proof.
  split; [|split; [repeat constructor; lia|split; [unfold bytes, is_byte; repeat constructor; lia|reflexivity]]].
  assert (S : forall cp, 0 <= cp < 0xD800 \/ 0xE000 <= cp <= 0x10FFFF -> scalar cp) by (intros cp ?; unfold scalar, code_point, surrogate; lia).
  apply (ut_cons scalar 0x41); [apply S; lia|]. apply (ut_cons scalar 0xE9); [apply S; lia|].
  apply (ut_cons scalar 0x1F600 []); [apply S; lia|constructor].
Qed.

(** ** C56: conversions stay within the storage they are given *)

(** Converting one supplementary character with a maximum of one unit writes three
    units, in storage for max + 1 = 2. *)
Theorem C56_refuted : exists (s : list Z) (max : Z) (w0 : list Z),
  valid_utf8 s /\ nul_free s /\ 0 <= max /\ Z.of_nat (length w0) = max + 1 /\
  string_to_wide (S (length s)) (s ++ [0]) w0 0 max = UB.
Proof.
  exists [0xF0; 0x9F; 0x98; 0x80], 1, [0; 0]. split.
  { apply (ut_cons scalar 0x1F600 []); [unfold scalar, code_point, surrogate; lia|constructor]. }
  repeat split; try lia; repeat constructor; lia.
Qed.
Print Assumptions C56_refuted.

(** The other direction: for every text and every maximum it writes, within max + 1
    bytes, the longest prefix of whole characters that fits, and a terminator. *)
Theorem C56_wide_to_string (w rest s0 : list Z) (max : Z) :
  units (w ++ 0 :: rest) -> nul_free w -> 0 <= max -> max + 1 <= Z.of_nat (length s0) ->
  exists l, wdecodes w l /\ Z.of_nat (length (encode8 (fitting max l))) <= max /\
    wide_to_string (w ++ 0 :: rest) s0 0 max = Ret (holding (encode8 (fitting max l)) s0).
Proof.
  intros HU HN HM HL. destruct (wdecodes_total (length w) w) as [l W]; auto.
  { apply Forall_app in HU. tauto. }
  exists l. split; [auto|]. pose proof (fitting_bound l max HM) as B. split; [auto|].
  pose proof (wide_to_string_ok w l W rest [] s0 max HU) as R. cbn [app length] in R. rewrite R.
  replace (_ <? _)%nat with true by lia. reflexivity.
Qed.
Print Assumptions C56_wide_to_string.

Example C56_wide_case : exists w rest s0 max, units (w ++ 0 :: rest) /\ nul_free w /\ 0 <= max /\ max + 1 <= Z.of_nat (length s0) /\
  wide_to_string (w ++ 0 :: rest) s0 0 max = Ret [0x41; 0; 9; 9].
Proof.
  exists [0x41; 0xD83D; 0xDE00], [5], [9; 9; 9; 9], 3. unfold units, nul_free. repeat split; try (simpl; lia); repeat constructor; lia.
Qed.

(** What is missing from the property is exactly the split pair: with storage for
    max + 1 units the conversion is within it iff the characters read until max
    units are reached encode to at most max units; then they and a terminator are
    written. With storage for max + 2 units it always is within it. *)
Theorem C56_string_to_wide_partial (s rest w0 : list Z) (max : Z) :
  bytes (s ++ 0 :: rest) -> nul_free s -> 0 <= max ->
  exists l, decodes s l /\ Z.of_nat (length (encode16 (reaching max l))) <= max + 1 /\
    (Z.of_nat (length w0) = max + 1 ->
       string_to_wide (S (length s)) (s ++ 0 :: rest) w0 0 max =
       if Z.of_nat (length (encode16 (reaching max l))) <=? max
       then Ret (holding (encode16 (reaching max l)) w0) else UB) /\
    (max + 2 <= Z.of_nat (length w0) ->
       string_to_wide (S (length s)) (s ++ 0 :: rest) w0 0 max = Ret (holding (encode16 (reaching max l)) w0)).
Proof.
  intros HB HN HM. assert (HBs : bytes s) by now apply bytes_app in HB.
  destruct (decodes_total (length s) s ltac:(lia) HBs HN) as [l D]. exists l. split; [auto|].
  destruct (decodes_nul_free _ _ D) as [_ F].
  assert (FC : Forall code_point l) by (eapply Forall_impl; [|exact F]; intros a Ha; apply Ha).
  pose proof (reaching_bound l max FC HM) as B. split; [auto|].
  pose proof (string_to_wide_ok l (S (length s)) s rest [] w0 max D HB ltac:(lia)) as R. cbn [app length] in R. split; intros HL; rewrite R.
  - replace (_ <? _)%nat with (Z.of_nat (length (encode16 (reaching max l))) <=? max) by lia. reflexivity.
  - replace (_ <? _)%nat with true by lia. reflexivity.
Qed.
Print Assumptions C56_string_to_wide_partial.

Example C56_partial_case : bytes ([0x41; 0xF0; 0x9F; 0x98; 0x80] ++ 0 :: []) /\ nul_free [0x41; 0xF0; 0x9F; 0x98; 0x80] /\ 0 <= 3 /\
  Z.of_nat (length [7; 7; 7; 7]) = 3 + 1 /\
  string_to_wide 6 ([0x41; 0xF0; 0x9F; 0x98; 0x80] ++ [0]) [7; 7; 7; 7] 0 3 = Ret [0x41; 0xD83D; 0xDE00; 0].
Proof. unfold bytes, is_byte, nul_free. repeat split; try lia; repeat constructor; lia. Qed.

(** ** C57: ill-formed text *)

(** Every C string has exactly one decoding in which bytes that start no pattern
    become U+FFFD, and the conversion to UTF-16 is the encoding of that decoding;
    the count is its number of units. No byte after the terminator is read. *)
Theorem C57_string_to_wide (s rest : list Z) : bytes (s ++ 0 :: rest) -> nul_free s ->
  exists l, decodes s l /\ (forall l', decodes s l' -> l' = l) /\
    wide_text_char_count (S (length s)) (s ++ 0 :: rest) = Ret (length (encode16 l)) /\
    forall w0, (length (encode16 l) < length w0)%nat ->
      string_to_wide (S (length s)) (s ++ 0 :: rest) w0 0 (Z.of_nat (length (encode16 l))) = Ret (holding (encode16 l) w0).
Proof.
  intros HB HN. assert (HBs : bytes s) by now apply bytes_app in HB.
  destruct (decodes_total (length s) s ltac:(lia) HBs HN) as [l D]. exists l. split; [auto|].
  split; [intros l' D'; symmetry; eapply decodes_unique; eauto|]. split; [apply wide_count_ok; auto|].
  destruct (decodes_nul_free _ _ D) as [_ F].
  assert (FC : Forall code_point l) by (eapply Forall_impl; [|exact F]; intros a Ha; apply Ha).
  intros w0 HL. pose proof (string_to_wide_ok l (S (length s)) s rest [] w0 (Z.of_nat (length (encode16 l))) D HB ltac:(lia)) as R.
  cbn [app length] in R. rewrite reaching_all in R by (auto; lia). rewrite R. replace (_ <? _)%nat with true by lia. reflexivity.
Qed.
Print Assumptions C57_string_to_wide.

Example C57_case : bytes ([0xE2; 0x82; 0x41] ++ 0 :: []) /\ nul_free [0xE2; 0x82; 0x41] /\
  string_to_wide 4 ([0xE2; 0x82; 0x41] ++ [0]) [7; 7; 7; 7] 0 3 = Ret [0xFFFD; 0xFFFD; 0x41; 0].
Proof. unfold bytes, is_byte, nul_free. repeat split; repeat constructor; lia. Qed.

(** Every sequence of units has exactly one decoding in which surrogates outside
    pairs are dropped; the length is that of its UTF-8 encoding, and the conversion
    always yields valid UTF-8. *)
Theorem C57_wide_to_string (w rest : list Z) : units (w ++ 0 :: rest) -> nul_free w ->
  exists l, wdecodes w l /\ (forall l', wdecodes w l' -> l' = l) /\ valid_utf8 (encode8 l) /\
    unicode_string_length (w ++ 0 :: rest) = Ret (length (encode8 l)) /\
    forall s0, (length (encode8 l) < length s0)%nat ->
      wide_to_string (w ++ 0 :: rest) s0 0 (Z.of_nat (length (encode8 l))) = Ret (holding (encode8 l) s0).
Proof.
  intros HU HN. destruct (wdecodes_total (length w) w) as [l W]; auto.
  { apply Forall_app in HU. tauto. }
  exists l. split; [auto|]. split; [intros l' W'; symmetry; eapply wdecodes_unique; eauto|].
  split.
  { pose proof (wdecodes_scalars _ _ W) as F. clear -F. induction F as [|cp l [C _] F IH]; [constructor|]. unfold encode8. simpl. now constructor. }
  split; [now apply string_length_ok|]. intros s0 HL.
  pose proof (wide_to_string_ok w l W rest [] s0 (Z.of_nat (length (encode8 l))) HU) as R. cbn [app length] in R.
  rewrite fitting_all in R by lia. rewrite R. replace (_ <? _)%nat with true by lia. reflexivity.
Qed.
Print Assumptions C57_wide_to_string.

Example C57_wide_case : exists w rest, units (w ++ 0 :: rest) /\ nul_free w /\ wide_to_string (w ++ 0 :: rest) [7; 7; 7; 7] 0 2 = Ret [0x41; 0x42; 0; 7].
Proof. exists [0xDE00; 0x41; 0xD83D; 0x42; 0xD83D], []. unfold units, nul_free. repeat split; repeat constructor; lia. Qed.

(** ** C58: counting characters *)

(** The counts step over the bytes a first byte announces without looking at them:
    on a text that ends inside a sequence they read behind the terminator. *)
Theorem C58_refuted : exists s : list Z, bytes s /\ nul_free s /\
  (forall fuel, unicode_char_count (S (S fuel)) (s ++ [0]) = UB) /\
  (forall n, unicode_string_byte_count (S (S n)) (s ++ [0]) = UB).
Proof.
  exists [0xE2]. unfold bytes, is_byte, nul_free. repeat split; repeat constructor; lia.
Qed.
Print Assumptions C58_refuted.

(** On valid UTF-8: the number of code points; the bytes of the first n; the number
    of code points that start before a bound. *)
Theorem C58_counts_partial (s rest : list Z) : valid_utf8 s -> nul_free s ->
  exists l, s = encode8 l /\ Forall scalar l /\
    unicode_char_count (S (length s)) (s ++ 0 :: rest) = Ret (length l) /\
    (forall n, unicode_string_byte_count n (s ++ 0 :: rest) = Ret (length (encode8 (firstn n l)))) /\
    (forall max, exists k, unicode_char_count_max (S (length s)) (s ++ 0 :: rest) max = Ret k /\ (k <= length l)%nat /\
       (forall i, (i < k)%nat -> Z.of_nat (length (encode8 (firstn i l))) < max) /\
       ((k < length l)%nat -> max <= Z.of_nat (length (encode8 (firstn k l))))).
Proof.
  intros V HN. destruct (valid_decodes s V HN) as (l & D & E & F). exists l.
  assert (HL : (length l <= length s)%nat).
  { rewrite E. clear. induction l as [|cp l IH]; [simpl; lia|]. unfold encode8 in *. simpl. rewrite app_length. pose proof (utf8_length_bounds cp). lia. }
  split; [auto|]. split; [eapply Forall_impl; [|exact F]; intros a Ha; apply Ha|].
  assert (HF : (length l < S (length s))%nat) by lia. split; [|split].
  - pose proof (char_count_ok l _ rest F HF) as R. now rewrite <- E in R.
  - intros n. pose proof (byte_count_ok n l rest F) as R. now rewrite <- E in R.
  - intros max. pose proof (char_count_max_ok l _ rest max F HF) as R. now rewrite <- E in R.
Qed.
Print Assumptions C58_counts_partial.

Example C58_case : unicode_char_count 8 [0x41; 0xC3; 0xA9; 0xF0; 0x9F; 0x98; 0x80; 0] = Ret 3%nat.
Proof. reflexivity. Qed.

(** Stepping over one code point forwards and backwards, within [max] bytes. *)
Theorem C58_steps (cp : Z) (rest before : list Z) (max : nat) : code_point cp ->
  next_char_byte_count (utf8 cp ++ rest) (Z.of_nat max) = Ret (Z.of_nat (Nat.min max (length (utf8 cp)))) /\
  previous_char_byte_count (rev (utf8 cp) ++ before) max = Ret (Nat.min max (length (utf8 cp))).
Proof.
  intros H. split; [|now apply previous_ok]. destruct (step_utf8 cp rest H) as (c & r & E & St & _).
  unfold next_char_byte_count. rewrite E. unfold rd. cbn [nth_error bind]. rewrite St. f_equal. lia.
Qed.
Print Assumptions C58_steps.

Example C58_steps_case : previous_char_byte_count (rev (utf8 0x20AC) ++ [0x41]) 10 = Ret 3%nat.
Proof. reflexivity. Qed.
