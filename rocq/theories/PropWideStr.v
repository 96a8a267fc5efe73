(** * Property of strings and buffers made of UTF-16 texts: C95. *)

From Verif Require Import Base TextModel SpecUtf8 TextProofs LexProofs WideModel SpecWide WideProofs PropWide
  StringModel SpecText StringProofs DynModel DynProofs WideStrModel.

Lemma holding_splice t b : holding t b = splice b 0 (t ++ [0]).
Proof. unfold holding, splice. simpl. rewrite app_length, <- app_assoc. simpl. now rewrite Nat.add_1_r. Qed.

Lemma encode8_nul_free l : Forall (fun cp => scalar cp /\ cp <> 0) l -> nul_free (encode8 l).
Proof.
  induction 1 as [|cp l [[C _] N] F IH]; [constructor|]. unfold encode8, nul_free in *. simpl. apply Forall_app. split; [|exact IH].
  now apply utf8_pos.
Qed.

Section Alloc.
Variables (g h : Z -> list Z).
Hypothesis Hg : forall n, 0 <= n -> Z.of_nat (length (g n)) = n.
Hypothesis Hh : forall n, 0 <= n -> Z.of_nat (length (h n)) = n.

Lemma set_empty_ok n : 0 <= n -> exists d0 d, new_empty = Ret d0 /\ set_string_length g d0 n = Ret d /\ shape d /\
  logical d = n + 1 /\ logical d <= physical d.
Proof.
  intros Hn. destruct new_empty_ok as (d0 & E & He). exists d0. rewrite E. cbn in E. injection E as <-.
  unfold set_string_length. destruct (Z.ltb_spec 0 n) as [H|H].
  2:{ eexists. split; [reflexivity|]. split; [reflexivity|]. assert (n = 0) by lia. subst n. simpl. split; [|lia].
      split; [reflexivity|]. split; [reflexivity|]. auto. }
  cbn [logical]. replace (n + 1 =? 1) with false by lia. cbn [negb]. destruct (Z.ltb_spec 16 (n + 1)) as [H16|H16].
  - cbn [physical]. replace (16 <? n + 1) with true by lia. cbn [orb chars heap local].
    pose proof (physical_size_ge (n + 1)) as Hp. set (p := physical_size (n + 1)) in *. clearbody p. pose proof (Hg p ltac:(lia)) as Hgp.
    replace (Z.min n (1 - 1)) with 0 by lia. rewrite copy_text_max_at; [|left; reflexivity|change (Z.to_nat 0) with 0%nat; rewrite Nat.min_0_l; lia]. cbn [bind].
    change (Z.to_nat 0) with 0%nat. cbn [firstn app].
    unfold chars at 1. cbn [heap]. rewrite wr_splice.
    2:{ rewrite splice_length; simpl; lia. }
    cbn [bind]. eexists. split; [reflexivity|]. split; [reflexivity|]. unfold with_chars. cbn [heap logical physical local].
    split; [|lia]. split; [reflexivity|]. split; [|simpl; discriminate]. unfold chars. cbn [heap physical].
    assert (HS : length (splice (g p) 0 [0]) = length (g p)) by (apply splice_length; simpl; lia).
    rewrite splice_length; [rewrite HS; exact Hgp|rewrite HS; simpl; lia].
  - cbn [heap bind with_logical chars local physical].
    assert (HL : (Z.to_nat n < length (0 :: repeat 48 14 ++ [0]))%nat) by (simpl; lia).
    change (local (Dyn _ _ _ ?l)) with l. change (chars (Dyn _ _ None ?l)) with l. rewrite wr_splice by exact HL. cbn [bind].
    eexists. split; [reflexivity|]. split; [reflexivity|]. unfold with_chars, with_logical. cbn [heap logical physical local].
    split; [|lia]. assert (HS : length (splice (0 :: repeat 48 14 ++ [0]) (Z.to_nat n) [0]) = 16%nat).
    { rewrite splice_length; simpl; lia. }
    split; [exact HS|]. split; [|auto]. unfold chars. cbn [heap local physical]. exact (f_equal Z.of_nat HS).
Qed.

(** A String made of any UTF-16 text, by its constructor and by the buffer's
    conversion, holds its UTF-8 form; surrogates outside pairs are dropped. *)
Theorem C95_strings (w rest : list Z) : units (w ++ 0 :: rest) -> nul_free w ->
  exists l, wdecodes w l /\ valid_utf8 (encode8 l) /\
    (exists d, new_wide g (w ++ 0 :: rest) = Ret d /\ exact d (encode8 l)) /\
    (exists d, wide_string g (w ++ 0 :: rest) = Ret d /\ exact d (encode8 l)).
Proof.
  intros HU HN. destruct (C57_wide_to_string w rest HU HN) as (l & W & _ & V & EL & EW). exists l. split; [auto|]. split; [auto|].
  pose proof (encode8_nul_free l (wdecodes_scalars _ _ W)) as NF.
  assert (ST : forall d, shape d -> logical d = Z.of_nat (length (encode8 l)) + 1 -> logical d <= physical d ->
    exists b, wide_to_string (w ++ 0 :: rest) (chars d) 0 (Z.of_nat (length (encode8 l))) = Ret b /\ exact (with_chars d b) (encode8 l)).
  { intros d Hs Hl Hp. pose proof (room d (encode8 l) Hs ltac:(lia)) as R. rewrite EW by lia. eexists. split; [reflexivity|].
    rewrite holding_splice. apply exact_sized; auto. }
  split.
  - unfold new_wide. rewrite EL. cbn [bind]. destruct (Nat.ltb_spec 0 (length (encode8 l))) as [H|H].
    + destruct (new_sized_ok g Hg (Z.of_nat (length (encode8 l)) + 1)) as (Hs & Hl & Hp); [lia|].
      destruct (ST _ Hs Hl ltac:(lia)) as (b & E & He). rewrite E. cbn [bind]. eauto.
    + destruct (encode8 l); [|simpl in H; lia]. destruct new_empty_ok as (d & E & He). exists d. split; [exact E|auto].
  - unfold wide_string. rewrite EL. cbn [bind].
    destruct (set_empty_ok (Z.of_nat (length (encode8 l)))) as (d0 & d & E0 & E & Hs & Hl & Hp); [lia|].
    rewrite E0. cbn [bind]. rewrite E. cbn [bind]. destruct (ST d Hs Hl Hp) as (b & Eb & He). rewrite Eb. cbn [bind]. eauto.
Qed.

(** A buffer made of any text holds its UTF-16 form, in a block that it fills. *)
Theorem C95_buffers (s rest : list Z) : bytes (s ++ 0 :: rest) -> nul_free s ->
  exists l, decodes s l /\ wide_buffer h (s ++ 0 :: rest) = Ret (encode16 l ++ [0]).
Proof.
  intros HB HN. assert (HBs : bytes s) by now apply bytes_app in HB.
  destruct (decodes_total (length s) s) as [l D]; auto. exists l. split; [auto|]. unfold wide_buffer.
  assert (HF : (length s < S (length (s ++ 0%Z :: rest)))%nat) by (rewrite app_length; simpl; lia).
  rewrite (wide_count_ok l _ s rest D HB HF). cbn [bind].
  destruct (decodes_nul_free _ _ D) as [_ F]. assert (FC : Forall code_point l) by (eapply Forall_impl; [|exact F]; intros a Ha; apply Ha).
  pose proof (Hh (Z.of_nat (length (encode16 l)) + 1) ltac:(lia)) as HL.
  set (w0 := h (Z.of_nat (length (encode16 l)) + 1)) in *.
  pose proof (string_to_wide_ok l (S (length (s ++ 0 :: rest))) s rest [] w0 (Z.of_nat (length (encode16 l))) D HB HF) as R.
  simpl length in R. rewrite reaching_all in R by (auto; lia). cbn [app] in R. cbn [length]. rewrite R.
  replace (length (encode16 l) <? length w0)%nat with true by lia. unfold holding. rewrite skipn_all2 by lia. reflexivity.
Qed.

(** There and back: every text in UTF-8 is the same afterwards. *)
Theorem C95_round_trip (s rest : list Z) : valid_utf8 s -> nul_free s -> bytes (s ++ 0 :: rest) ->
  exists w d d', wide_buffer h (s ++ 0 :: rest) = Ret w /\
    new_wide g w = Ret d /\ exact d s /\ wide_string g w = Ret d' /\ exact d' s.
Proof.
  intros V HN HB. destruct (C95_buffers s rest HB HN) as (l & D & E). destruct (valid_decodes s V HN) as (l' & D' & Es & F).
  pose proof (decodes_unique _ _ D _ D') as <-. pose proof (encode16_wdecodes l F) as W. destruct (wdecodes_units _ _ W) as [U N].
  destruct (C95_strings (encode16 l) []) as (l2 & W2 & _ & (d & E1 & H1) & (d' & E2 & H2)).
  { apply Forall_app. split; [exact U|repeat constructor; lia]. } { exact N. }
  pose proof (wdecodes_unique _ _ W _ W2) as <-. rewrite <- Es in *. exists (encode16 l ++ [0]), d, d'. auto.
Qed.

Lemma zeros_ok n : forall b i, (i + n <= length b)%nat -> zeros n b i = Ret (splice b i (repeat 0 n)).
Proof.
  induction n as [|n IH]; intros b i H; simpl.
  - f_equal. unfold splice. simpl. rewrite Nat.add_0_r. now rewrite firstn_skipn.
  - rewrite wr_splice by lia. cbn [bind]. rewrite IH by (rewrite splice_length; simpl; lia). f_equal.
    apply splice_splice. rewrite repeat_length. lia.
Qed.

(** A blank buffer holds zeros only. *)
Theorem C95_blank (max : nat) : wide_blank h max = Ret (repeat 0 (S max)).
Proof.
  unfold wide_blank. pose proof (Hh (Z.of_nat max + 1) ltac:(lia)) as HL. set (b := h (Z.of_nat max + 1)) in *. clearbody b.
  rewrite zeros_ok by lia. cbn [bind].
  assert (HS : length (splice b 0 (repeat 0 max)) = length b) by (apply splice_length; rewrite repeat_length; lia).
  rewrite wr_splice by lia. f_equal. unfold splice at 1. cbn [length]. rewrite (skipn_all2 (n := (max + 1)%nat)) by lia.
  rewrite app_nil_r. unfold splice. simpl. rewrite firstn_app, firstn_all2, repeat_length, Nat.sub_diag by (rewrite repeat_length; lia).
  simpl. rewrite app_nil_r. now rewrite <- repeat_cons.
Qed.

Lemma wide_copy_ok : forall n w rest b i, nul_free w -> (i + n <= length b)%nat ->
  wide_copy n (w ++ 0 :: rest) b i = Ret (splice b i (firstn n w), (i + length (firstn n w))%nat).
Proof.
  induction n as [|n IH]; intros w rest b i HN Hi.
  - assert (E : splice b i [] = b) by (unfold splice; simpl; rewrite Nat.add_0_r; apply firstn_skipn).
    destruct w as [|u w]; simpl; [|inversion HN; subst; rewrite (proj2 (Z.eqb_neq u 0)) by auto]; now rewrite E, Nat.add_0_r.
  - destruct w as [|u w]; simpl.
    + assert (E : splice b i [] = b) by (unfold splice; simpl; rewrite Nat.add_0_r; apply firstn_skipn). now rewrite E, Nat.add_0_r.
    + inversion HN as [|? ? Hu Hw]; subst. rewrite (proj2 (Z.eqb_neq u 0)) by auto. rewrite wr_splice by lia. cbn [bind].
      rewrite IH; [|exact Hw|rewrite splice_length; simpl; lia]. f_equal. f_equal; [|lia].
      apply splice_splice. rewrite firstn_length. lia.
Qed.

(** A buffer made of at most [max] units of a text holds those units and ends
    with a zero; the units between are those of the new block. *)
Theorem C95_part (w rest : list Z) (max : nat) : nul_free w ->
  exists b, wide_part h (w ++ 0 :: rest) max = Ret b /\ length b = S max /\
    firstn (S (length (firstn max w))) b = firstn max w ++ [0] /\ nth_error b max = Some 0.
Proof.
  intros HN. unfold wide_part. pose proof (Hh (Z.of_nat max + 1) ltac:(lia)) as HL. set (b := h (Z.of_nat max + 1)) in *. clearbody b.
  rewrite wide_copy_ok by (auto; lia). cbn [bind]. set (t := firstn max w). assert (Ht : (length t <= max)%nat) by (unfold t; rewrite firstn_length; lia).
  assert (S1 : length (splice b 0 t) = length b) by (apply splice_length; lia). rewrite wr_splice by lia. cbn [bind].
  assert (S2 : length (splice (splice b 0 t) (0 + length t) [0]) = length b)
    by (rewrite splice_length; [exact S1|rewrite S1; simpl; lia]).
  rewrite wr_splice by lia. eexists. split; [reflexivity|].
  split; [rewrite splice_length; rewrite S2; simpl; lia|].
  assert (E : splice (splice b 0 t) (0 + length t) [0] = t ++ 0 :: skipn (S (length t)) b).
  { unfold splice. cbn [firstn app Nat.add]. rewrite firstn_app, Nat.sub_diag, firstn_all, firstn_O, app_nil_r. f_equal. cbn [app]. f_equal.
    rewrite skipn_app, skipn_all2 by lia. simpl app. rewrite skipn_skipn. f_equal. simpl. lia. }
  rewrite E in *. split.
  - unfold splice. cbn [length]. destruct (Nat.eq_dec (length t) max) as [Em|Em].
    + rewrite <- Em. rewrite (firstn_app (length t)), Nat.sub_diag, (firstn_all t), firstn_O, app_nil_r. rewrite firstn_app.
      rewrite firstn_all2 by lia. replace (S (length t) - length t)%nat with 1%nat by lia. reflexivity.
    + rewrite firstn_app, firstn_firstn, firstn_length, S2. replace (S (length t) - Nat.min max (length b))%nat with 0%nat by lia.
      rewrite firstn_O, app_nil_r, Nat.min_l by lia. rewrite firstn_app. rewrite firstn_all2 by lia.
      replace (S (length t) - length t)%nat with 1%nat by lia. reflexivity.
  - unfold splice. rewrite nth_error_app2; rewrite firstn_length; [|lia]. replace (max - Nat.min max _)%nat with 0%nat by lia. reflexivity.
Qed.
End Alloc.

(** An instance: "é" and U+1F600 there and back; a surrogate on its own is dropped. *)
Example C95_instance :
  let g := fun n => repeat 90 (Z.to_nat n) in
  wide_buffer g [195; 169; 240; 159; 152; 128; 0] = Ret [233; 55357; 56832; 0] /\
  (let! d := new_wide g [233; 55357; 56832; 0] in Ret (cstr (chars d))) = Ret [195; 169; 240; 159; 152; 128] /\
  (let! d := wide_string g [65; 55357; 66; 0] in Ret (cstr (chars d))) = Ret [65; 66] /\
  wide_part g [65; 66; 67; 0] 2 = Ret [65; 66; 0] /\ wide_part g [65; 0] 3 = Ret [65; 0; 90; 0].
Proof. repeat split. Qed.

Print Assumptions C95_strings.
Print Assumptions C95_buffers.
Print Assumptions C95_round_trip.
Print Assumptions C95_blank.
Print Assumptions C95_part.
