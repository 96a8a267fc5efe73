(** * Proofs about String<0>. *)

From Verif Require Import Base StringModel SpecText StringProofs DynModel.

#[local] Arguments Z.eqb : simpl nomatch.
#[local] Arguments Z.ltb : simpl nomatch.

(** ** Invariants *)

Definition shape (d : dyn) : Prop :=
  length (local d) = 16%nat /\ Z.of_nat (length (chars d)) = physical d /\ (heap d = None -> physical d = 16).

(** There is a NUL among the first [n] bytes. *)
Definition nul_in (n : Z) (b : list Z) : Prop := exists k, Z.of_nat k < n /\ nth_error b k = Some 0.

(** Weak invariant: the storage has the recorded size and contains the terminator
    of some text. Strong invariant: the text is [s] and its length is recorded. *)
Definition sound (d : dyn) : Prop := shape d /\ 1 <= logical d <= physical d /\ nul_in (logical d) (chars d).
Definition exact (d : dyn) (s : list Z) : Prop := shape d /\ holds (chars d) s /\ logical d = Z.of_nat (length s) + 1.

Lemma holds_nul_at b s : holds b s -> nth_error b (length s) = Some 0.
Proof. intros [_ [r ->]]. rewrite nth_error_app2, Nat.sub_diag by lia. reflexivity. Qed.

Lemma exact_sound d s : exact d s -> sound d.
Proof.
  intros (Hs & Hh & Hl). pose proof (holds_length _ _ Hh) as H. split; [auto|]. destruct Hs as (_ & Hp & _).
  split; [lia|]. exists (length s). split; [lia|]. now apply holds_nul_at.
Qed.

Lemma nul_in_text n b : nul_in n b -> In 0 b /\ Z.of_nat (length (cstr b)) < n.
Proof.
  intros (k & Hk & E). split; [eapply nth_error_In; eauto|].
  revert b n Hk E. induction k as [|k IH]; intros [|c b] n Hk E; try discriminate; simpl in *.
  - injection E as ->. simpl. lia.
  - destruct (Z.eqb_spec c 0); simpl; [lia|]. specialize (IH b (n - 1)). lapply IH; [|lia]. intros H. specialize (H E). lia.
Qed.

Lemma splice_nul n b i t : (i + length t + 1 <= length b)%nat -> Z.of_nat (i + length t) < n ->
  nul_in n (splice b i (t ++ [0])).
Proof.
  intros HL Hn. exists (i + length t)%nat. split; [lia|]. unfold splice.
  rewrite nth_error_app2 by (rewrite firstn_length; lia). rewrite firstn_length.
  replace (i + length t - Nat.min i (length b))%nat with (length t) by lia.
  rewrite nth_error_app1 by (rewrite app_length; simpl; lia).
  rewrite nth_error_app2, Nat.sub_diag by lia. reflexivity.
Qed.

Lemma physical_size_ge n : n + 4 <= physical_size n.
Proof.
  unfold physical_size. change (Z.lnot 63) with (Z.lnot (Z.ones 6)). rewrite <- Z.ldiff_land, Z.ldiff_ones_r by lia.
  rewrite Z.shiftr_div_pow2, Z.shiftl_mul_pow2 by lia. change (2 ^ 6) with 64. lia.
Qed.

Lemma copy_text_at p b i : In 0 p -> (i + length (cstr p) + 1 <= length b)%nat -> copy_text p b i = Ret (splice b i (cstr p ++ [0])).
Proof. intros Hp H. destruct (cstr_nul p Hp) as (r & Ep & Hn). rewrite Ep at 1. now apply copy_text_ok. Qed.

Lemma text_length p : In 0 p -> get_text_length p = Ret (length (cstr p)).
Proof. intros Hp. destruct (cstr_nul p Hp) as (r & Ep & Hn). rewrite Ep at 1. now apply get_text_length_ok. Qed.

Lemma cstr_nul_free p : In 0 p -> nul_free (cstr p).
Proof. intros Hp. now destruct (cstr_nul p Hp) as (r & Ep & Hn). Qed.

Lemma copy_n_ok n : forall src b i, (n <= length src)%nat -> (i + n <= length b)%nat ->
  copy_n n src b i = Ret (splice b i (firstn n src)).
Proof.
  induction n as [|n IH]; intros src b i Hs Hb.
  - simpl. f_equal. unfold splice. simpl. now rewrite Nat.add_0_r, firstn_skipn.
  - destruct src as [|c src]; simpl in Hs; [lia|]. cbn [copy_n]. change (rd (c :: src) 0) with (@Ret Z c). cbn [bind].
    rewrite wr_splice by lia. cbn [bind]. change (skipn 1 (c :: src)) with src.
    rewrite IH; [|lia|rewrite splice_length; simpl; lia].
    rewrite splice_splice by (rewrite ?firstn_length; simpl; lia). reflexivity.
Qed.

Lemma wrs0 b c : (0 < length b)%nat -> wr b 0 c = Ret (splice b 0 [c]).
Proof. intros H. now apply wr_splice. Qed.

Lemma chars_with d b : chars (with_chars d b) = b.
Proof. unfold with_chars, chars. now destruct (heap d) eqn:E; simpl. Qed.

Lemma shape_with d b : shape d -> length b = length (chars d) -> shape (with_chars d b).
Proof.
  intros (H1 & H2 & H3) E. unfold shape. rewrite chars_with, E. unfold with_chars, chars in *.
  destruct (heap d) eqn:Eh; simpl in *; repeat split; auto; try congruence.
Qed.

Lemma physical_with d b : physical (with_chars d b) = physical d.
Proof. unfold with_chars. now destruct (heap d). Qed.
Lemma logical_with d b : logical (with_chars d b) = logical d.
Proof. unfold with_chars. now destruct (heap d). Qed.
Lemma chars_logical d n : chars (with_logical d n) = chars d.
Proof. reflexivity. Qed.
Lemma shape_logical d n : shape d -> shape (with_logical d n).
Proof. exact (fun H => H). Qed.

(** Storing a whole text at the start of a storage with room for it. *)
Lemma exact_store d t n : shape d -> nul_free t -> n = Z.of_nat (length t) + 1 -> n <= physical d ->
  exact (with_logical (with_chars d (splice (chars d) 0 (t ++ [0]))) n) t.
Proof.
  intros Hs Ht -> Hp. destruct Hs as (H1 & H2 & H3).
  assert (HL : (0 + length (t ++ [0%Z]) <= length (chars d))%nat) by (rewrite app_length; simpl; lia).
  split; [|split].
  - apply shape_logical, shape_with; [split; auto|]. now apply splice_length.
  - rewrite chars_logical, chars_with. now apply holds_splice0.
  - reflexivity.
Qed.

Lemma with_same d b n : logical d = n -> with_logical (with_chars d b) n = with_chars d b.
Proof. intros <-. unfold with_logical, with_chars. now destruct (heap d). Qed.

Lemma purge_ok d : length (local d) = 16%nat -> exists d', purge d = Ret d' /\ exact d' [].
Proof.
  intros H. unfold purge. rewrite wrs0 by lia. cbn [bind]. eexists. split; [reflexivity|].
  split; [|split; [apply (holds_splice0 (local d) []); constructor|reflexivity]].
  assert (E : length (splice (local d) 0 [0]) = 16%nat) by (rewrite splice_length; simpl; lia).
  split; [exact E|]. split; [unfold chars; cbn [heap local physical]; lia|auto].
Qed.

(** Numerals of int32 values have at most eleven characters. *)
Lemma numeral32_length n t : numeral n t -> - 2 ^ 31 < n < 2 ^ 31 -> (length t <= 11)%nat.
Proof.
  assert (G : forall d ds, SpecNum.digits (d :: ds) -> d <> 48 -> SpecNum.dvalue (d :: ds) < 2 ^ 31 -> (length ds <= 9)%nat).
  { intros d ds H Hd Hv. inversion H as [|? ? H1 H2]; subst. change (d :: ds) with ([d] ++ ds) in Hv.
    rewrite FormatProofs.dvalue_app in Hv. pose proof (StrtodProofs.dvalue_nonneg ds H2). unfold SpecNum.digit in H1.
    assert (10 ^ Z.of_nat (length ds) < 10 ^ 10).
    { change (SpecNum.dvalue [d]) with ((d - 48) * 1 + 0) in Hv. assert (0 < 10 ^ Z.of_nat (length ds)) by lia.
      assert (2 ^ 31 < 10 ^ 10) by lia. nia. }
    assert (Z.of_nat (length ds) < 10) by (apply (Z.pow_lt_mono_r_iff 10); lia). lia. }
  intros H Hr. inversion H as [|d ds Hd Hz|d ds Hd Hz]; subst; [simpl; lia| |].
  - specialize (G d ds Hd Hz ltac:(lia)). simpl. lia.
  - specialize (G d ds Hd Hz ltac:(lia)). simpl. lia.
Qed.

Section Alloc.
Variable g : Z -> list Z.
Hypothesis Hg : forall n, 0 <= n -> Z.of_nat (length (g n)) = n.

Lemma new_sized_ok size : 1 <= size -> shape (new_sized g size) /\ logical (new_sized g size) = size /\ size <= physical (new_sized g size).
Proof.
  intros H. pose proof (physical_size_ge size). unfold new_sized. destruct (Z.ltb_spec 16 size); simpl; (split; [|split; [auto|lia]]).
  - repeat split; unfold chars; simpl; auto; try congruence. apply Hg. lia.
  - repeat split; auto.
Qed.

Lemma resize_ok d size : shape d -> 1 <= size ->
  shape (resize g d size) /\ logical (resize g d size) = size /\ size <= physical (resize g d size).
Proof.
  intros (H1 & H2 & H3) H. pose proof (physical_size_ge size). unfold resize. destruct (Z.ltb_spec 16 size); simpl.
  - destruct (Z.ltb_spec (physical d) size); simpl.
    + split; [|split; [auto|lia]]. repeat split; unfold chars; simpl; auto; try congruence. apply Hg. lia.
    + destruct (Z.ltb_spec size (physical d / 2)); simpl; (split; [|split; [auto|lia]]).
      * repeat split; unfold chars; simpl; auto; try congruence. apply Hg. lia.
      * repeat split; auto.
  - split; [|split; [auto|lia]]. repeat split; unfold chars; simpl; auto. lia.
Qed.

Lemma new_empty_ok : exists d, new_empty = Ret d /\ exact d [].
Proof. destruct (purge_ok (Dyn 1 16 None local_init) eq_refl) as (d & E & H). exists d. auto. Qed.

Lemma new_copy_ok s : sound s -> exists d, new_copy g s = Ret d /\ sound d /\ forall t, exact s t -> exact d t.
Proof.
  intros ((H1 & H2 & H3) & Hl & Hn). apply nul_in_text in Hn as Ht. destruct Ht as [H0 Ht].
  pose proof (physical_size_ge (logical s)) as Hp. unfold new_copy. destruct (Z.ltb_spec 1 (logical s)) as [Hs|Hs].
  - assert (Hroom : (0 + length (cstr (chars s)) + 1 <= length (g (physical_size (logical s))))%nat).
    { specialize (Hg (physical_size (logical s))). lia. }
    rewrite copy_text_at by auto. cbn [bind]. eexists. split; [reflexivity|].
    assert (Hsh : shape (Dyn (logical s) (physical_size (logical s)) (Some (splice (g (physical_size (logical s))) 0 (cstr (chars s) ++ [0]))) local_init)).
    { repeat split; unfold chars at 1; simpl; auto; try congruence.
      rewrite splice_length by (rewrite app_length; simpl; lia). apply Hg. lia. }
    split.
    + split; [auto|]. simpl. split; [lia|]. unfold chars at 1. simpl. apply splice_nul; lia.
    + intros t (_ & Hh & El). split; [auto|]. unfold chars at 1. simpl. split; [|auto].
      apply holds_nul in Hh as Hc. destruct Hc as [_ <-]. apply holds_splice0. apply cstr_nul_free; auto.
  - rewrite wrs0 by (simpl; lia). cbn [bind]. eexists. split; [reflexivity|].
    assert (Hsh : shape (Dyn (logical s) 16 None (splice local_init 0 [0]))) by (repeat split; reflexivity).
    split.
    + split; [auto|]. simpl. split; [lia|]. exists 0%nat. split; [lia|reflexivity].
    + intros t (_ & Hh & El). assert (t = []) as -> by (destruct t; [auto|simpl in El; lia]).
      split; [auto|]. split; [|auto]. apply (holds_splice0 local_init []). constructor.
Qed.

Lemma local_copy s l : length (local s) = 16%nat -> length l = 16%nat -> copy_n 16 (local s) l 0 = Ret (local s).
Proof.
  intros H1 H2. rewrite copy_n_ok by lia. f_equal. unfold splice. simpl firstn at 1. rewrite app_nil_l.
  rewrite firstn_all2 by lia. rewrite skipn_all2 by lia. apply app_nil_r.
Qed.

Lemma new_move_ok s : sound s -> exists d s', new_move s = Ret (d, s') /\ sound d /\ sound s' /\
  forall t, exact s t -> exact d t /\ (exact s' t \/ exact s' []).
Proof.
  intros Hs. pose proof Hs as ((H1 & H2 & H3) & Hl & Hn). unfold new_move. unfold chars in *. destruct (heap s) as [h|] eqn:Eh.
  - destruct (purge_ok s H1) as (s' & E & He). unfold purge in E. destruct (wr (local s) 0 0) as [b| |]; try discriminate.
    cbn [bind] in *. injection E as <-. do 2 eexists. split; [reflexivity|].
    assert (Hsh : shape (Dyn (logical s) (physical s) (Some h) local_init)).
    { repeat split; unfold chars; simpl; auto; congruence. }
    split; [split; [auto|split; auto]|]. split; [eapply exact_sound; eauto|].
    intros t (_ & Hh & El). split; [|auto]. unfold chars in Hh. rewrite Eh in Hh. split; [auto|split; auto].
  - rewrite local_copy by auto. cbn [bind]. do 2 eexists. split; [reflexivity|].
    assert (Hsh : shape (Dyn (logical s) (physical s) None (local s))) by (repeat split; auto).
    split; [split; [auto|split; auto]|]. split; [auto|]. intros t (Hsh' & Hh & El). split; [|left; split; auto].
    unfold chars in Hh. rewrite Eh in Hh. split; [auto|split; auto].
Qed.

Lemma dyn_move_ok d s : sound d -> sound s -> exists d' s', dyn_move d s = Ret (d', s') /\ sound d' /\ sound s' /\
  forall t, exact s t -> exact d' t /\ (exact s' t \/ exact s' []).
Proof.
  intros ((L1 & _) & _) Hs. pose proof Hs as ((H1 & H2 & H3) & Hl & Hn). unfold dyn_move. unfold chars in *. destruct (heap s) as [h|] eqn:Eh.
  - destruct (purge_ok s H1) as (s' & E & He). unfold purge in E. destruct (wr (local s) 0 0) as [b| |]; try discriminate.
    cbn [bind] in *. injection E as <-. do 2 eexists. split; [reflexivity|].
    assert (Hsh : shape (Dyn (logical s) (physical s) (Some h) (local d))).
    { repeat split; unfold chars; simpl; auto; congruence. }
    split; [split; [auto|split; auto]|]. split; [eapply exact_sound; eauto|].
    intros t (_ & Hh & El). split; [|auto]. unfold chars in Hh. rewrite Eh in Hh. split; [auto|split; auto].
  - rewrite local_copy by auto. cbn [bind]. do 2 eexists. split; [reflexivity|].
    assert (Hsh : shape (Dyn (logical s) (physical s) None (local s))) by (repeat split; auto).
    split; [split; [auto|split; auto]|]. split; [auto|]. intros t (Hsh' & Hh & El). split; [|left; split; auto].
    unfold chars in Hh. rewrite Eh in Hh. split; [auto|split; auto].
Qed.

Lemma dyn_move_self_ok d : sound d -> exists d', dyn_move_self d = Ret d' /\ sound d' /\
  forall t, exact d t -> exact d' t \/ exact d' [].
Proof.
  intros H. unfold dyn_move_self. destruct (heap d) eqn:E; [|eauto 10].
  destruct (purge_ok d) as (d' & Ep & He); [apply H|]. unfold purge in Ep. rewrite Ep. exists d'. split; [auto|].
  split; [eapply exact_sound; eauto|auto].
Qed.

(** Storing a whole text in a sized storage. *)
Lemma exact_sized d t : shape d -> nul_free t -> logical d = Z.of_nat (length t) + 1 -> logical d <= physical d ->
  exact (with_chars d (splice (chars d) 0 (t ++ [0]))) t.
Proof.
  intros Hs Ht Hl Hp. rewrite <- (with_same d _ (logical d)) by auto. now apply exact_store.
Qed.

Lemma room d (t : list Z) : shape d -> Z.of_nat (length t) + 1 <= physical d -> (0 + length t + 1 <= length (chars d))%nat.
Proof. intros (_ & H & _) Hp. lia. Qed.

Lemma new_text_ok p : In 0 p -> exists d, new_text g p = Ret d /\ exact d (cstr p).
Proof.
  intros Hp. unfold new_text. rewrite text_length by auto. cbn [bind].
  destruct (new_sized_ok (Z.of_nat (length (cstr p)) + 1)) as (Hs & Hl & Hph); [lia|].
  destruct (cstr_nul p Hp) as (r & Ep & Hn).
  rewrite copy_n_ok. cbn [bind]. 3: apply room with (t := cstr p) in Hs; [|lia]; lia.
  2:{ rewrite Ep at 2. rewrite app_length. simpl. lia. }
  eexists. split; [reflexivity|].
  replace (firstn (S (length (cstr p))) p) with (cstr p ++ [0]).
  2:{ rewrite Ep at 3. rewrite firstn_app. rewrite firstn_all2 by lia. f_equal.
      now replace (S (length (cstr p)) - length (cstr p))%nat with 1%nat by lia. }
  apply exact_sized; auto; lia.
Qed.

Lemma cut_length_ok n : forall p, In 0 p -> cut_length n p = Ret (Nat.min n (length (cstr p))).
Proof.
  induction n as [|n IH]; intros p Hp; [reflexivity|]. destruct p as [|c p]; [destruct Hp|].
  cbn [cut_length]. change (rd (c :: p) 0) with (@Ret Z c). cbn [bind]. simpl cstr.
  destruct (Z.eqb_spec c 0) as [->|Hc]; [reflexivity|]. change (skipn 1 (c :: p)) with p.
  destruct Hp as [Hp|Hp]; [congruence|]. rewrite IH by auto. reflexivity.
Qed.

Lemma splice_tail b t : (length t + 1 <= length b)%nat ->
  splice (splice b (length t) [0]) 0 t = splice b 0 (t ++ [0]).
Proof.
  intros H. unfold splice. simpl firstn at 1. rewrite !app_nil_l. simpl Nat.add.
  rewrite skipn_app, firstn_length. rewrite skipn_all2 by (rewrite firstn_length; lia).
  replace (length t - Nat.min (length t) (length b))%nat with 0%nat by lia. simpl skipn at 1. simpl app at 2.
  rewrite app_length. simpl length. rewrite <- app_assoc. reflexivity.
Qed.

Lemma new_part_ok p n : In 0 p -> 0 <= n -> exists d, new_part g p n = Ret d /\ exact d (firstn (Z.to_nat n) (cstr p)).
Proof.
  intros Hp H0. unfold new_part. rewrite cut_length_ok by auto. cbn [bind].
  destruct (Z.ltb_spec n 0); [lia|]. set (l := Nat.min (Z.to_nat n) (length (cstr p))).
  destruct (new_sized_ok (Z.of_nat l + 1)) as (Hs & Hl & Hph); [lia|].
  destruct (Z.ltb_spec (Z.of_nat l) 0); [lia|]. rewrite Nat2Z.id.
  destruct (cstr_nul p Hp) as (r & Ep & Hn). pose proof Hs as (_ & Hlen & _).
  rewrite wr_splice by lia. cbn [bind].
  assert (Hlp : (l <= length p)%nat). { rewrite Ep. rewrite app_length. subst l. lia. }
  rewrite copy_n_ok by (rewrite ?splice_length; simpl; lia). cbn [bind]. eexists. split; [reflexivity|].
  replace (firstn (Z.to_nat n) (cstr p)) with (firstn l p).
  2:{ rewrite Ep at 1. rewrite firstn_app. subst l. replace (Nat.min (Z.to_nat n) (length (cstr p)) - length (cstr p))%nat with 0%nat by lia.
      rewrite firstn_O, app_nil_r. destruct (le_lt_dec (Z.to_nat n) (length (cstr p))).
      - now rewrite Nat.min_l by lia.
      - rewrite Nat.min_r by lia. rewrite !firstn_all2 by lia. reflexivity. }
  assert (HL : length (firstn l p) = l) by (rewrite firstn_length; lia).
  replace (splice (splice (chars (new_sized g (Z.of_nat l + 1))) l [0]) 0 (firstn l p))
    with (splice (chars (new_sized g (Z.of_nat l + 1))) 0 (firstn l p ++ [0])).
  2:{ rewrite <- HL at 4. rewrite splice_tail by lia. reflexivity. }
  apply exact_sized; auto; try lia.
  rewrite Ep. rewrite firstn_app. subst l. replace (Nat.min (Z.to_nat n) (length (cstr p)) - length (cstr p))%nat with 0%nat by lia.
  rewrite firstn_O, app_nil_r. now apply firstn_nul_free.
Qed.

Lemma new_int_ok n : - 2 ^ 31 < n < 2 ^ 31 -> exists d t, new_int n = Ret d /\ numeral n t /\ exact d t.
Proof.
  intros Hn. destruct (integer_to_string_ok n Hn) as (t & Ht & _ & E). pose proof (numeral32_length n t Ht Hn) as HL.
  unfold new_int. rewrite E by (change (length local_init) with 16%nat; lia). cbn [bind]. do 2 eexists. split; [reflexivity|].
  split; [exact Ht|]. change (Z.to_nat 15) with 15%nat. rewrite firstn_all2, Nat.min_r by lia.
  apply (exact_store (Dyn 0 16 None local_init) t); [repeat split|eapply numeral_nul_free; eauto|auto|simpl; lia].
Qed.

Lemma new_int64_ok n : - 2 ^ 63 < n < 2 ^ 63 -> exists d t, new_int64 g n = Ret d /\ numeral n t /\ exact d t.
Proof.
  intros Hn. destruct (integer64_to_string_ok n Hn) as (t & Ht & HL & E).
  unfold new_int64. pose proof (Hg 64). rewrite E by lia. cbn [bind]. do 2 eexists. split; [reflexivity|].
  split; [exact Ht|]. change (Z.to_nat 63) with 63%nat. rewrite firstn_all2, Nat.min_r by lia.
  apply (exact_store (Dyn 0 64 (Some (g 64)) local_init) t); [|eapply numeral_nul_free; eauto|auto|simpl; lia].
  repeat split; unfold chars; simpl; auto; try congruence; apply Hg; lia.
Qed.

(** Appending after a text. *)
Lemma exact_after d s t n : shape d -> holds (chars d) s -> nul_free t ->
  n = Z.of_nat (length s) + Z.of_nat (length t) + 1 -> n <= physical d ->
  exact (with_logical (with_chars d (splice (chars d) (length s) (t ++ [0]))) n) (s ++ t).
Proof.
  intros Hs Hh Ht -> Hp. pose proof Hs as (_ & Hlen & _).
  split; [|split].
  - apply shape_logical, shape_with; [auto|]. apply splice_length. rewrite app_length. simpl. lia.
  - rewrite chars_logical, chars_with. now apply holds_splice.
  - simpl. rewrite app_length. lia.
Qed.

Lemma new_concat_ok s1 s2 : In 0 s1 -> In 0 s2 -> exists d, new_concat g s1 s2 = Ret d /\ exact d (cstr s1 ++ cstr s2).
Proof.
  intros H1 H2. unfold new_concat. rewrite !text_length by auto. cbn [bind].
  set (size := Z.of_nat (length (cstr s1)) + Z.of_nat (length (cstr s2)) + 1).
  destruct (Z.ltb_spec 1 size).
  - destruct (new_sized_ok size) as (Hs & Hl & Hph); [lia|]. pose proof Hs as (_ & Hlen & _).
    rewrite copy_text_at by (auto; lia). cbn [bind].
    assert (HL : length (splice (chars (new_sized g size)) 0 (cstr s1 ++ [0])) = length (chars (new_sized g size))).
    { apply splice_length. rewrite app_length. simpl. lia. }
    rewrite copy_text_at by (auto; rewrite HL; lia). cbn [bind]. eexists. split; [reflexivity|].
    set (d := with_chars (new_sized g size) (splice (chars (new_sized g size)) 0 (cstr s1 ++ [0]))).
    assert (Hd : shape d) by (apply shape_with; auto).
    assert (Hc : chars d = splice (chars (new_sized g size)) 0 (cstr s1 ++ [0])) by apply chars_with.
    replace (with_chars (new_sized g size) (splice (splice (chars (new_sized g size)) 0 (cstr s1 ++ [0])) (length (cstr s1)) (cstr s2 ++ [0])))
      with (with_logical (with_chars d (splice (chars d) (length (cstr s1)) (cstr s2 ++ [0]))) size).
    + apply exact_after; auto.
      * rewrite Hc. apply holds_splice0. now apply cstr_nul_free.
      * now apply cstr_nul_free.
      * unfold d. rewrite physical_with. lia.
    + rewrite Hc. unfold d, with_logical, with_chars. destruct (heap (new_sized g size)); simpl; rewrite Hl; reflexivity.
  - destruct new_empty_ok as (d & E & He). unfold new_empty in E. rewrite wrs0 in * by (simpl; lia). cbn [bind] in *.
    injection E as E. eexists. split; [reflexivity|].
    assert (E1 : cstr s1 = []) by (destruct (cstr s1); auto; subst size; simpl length in *; lia).
    assert (E2 : cstr s2 = []) by (destruct (cstr s2); auto; subst size; simpl length in *; lia).
    subst size. rewrite E1, E2, <- E in *. exact He.
Qed.

Lemma new_concat_number_ok conv n t s1 : In 0 s1 -> numeral n t -> (length t <= 63)%nat ->
  (forall b i max, (i + Nat.min (Z.to_nat max) (length t) + 1 <= length b)%nat ->
     conv n b i max = Ret (splice b i (firstn (Z.to_nat max) t ++ [0]), Z.of_nat (Nat.min (Z.to_nat max) (length t)))) ->
  exists d,
    (let! l1 := get_text_length s1 in
     let p := physical_size (Z.of_nat l1 + 64) in
     let! b := copy_text s1 (g p) 0 in
     let! (b, l) := conv n b l1 63 in Ret (Dyn (Z.of_nat l1 + l + 1) p (Some b) local_init)) = Ret d /\
    exact d (cstr s1 ++ t).
Proof.
  intros H1 Hn HL E. rewrite text_length by auto. cbn [bind]. cbv zeta.
  set (l1 := length (cstr s1)). pose proof (physical_size_ge (Z.of_nat l1 + 64)) as Hp.
  set (p := physical_size (Z.of_nat l1 + 64)) in *. pose proof (Hg p ltac:(lia)) as Hgp.
  rewrite copy_text_at by (auto; lia). cbn [bind].
  assert (HL2 : length (splice (g p) 0 (cstr s1 ++ [0])) = length (g p)).
  { apply splice_length. rewrite app_length. simpl. lia. }
  rewrite E by (rewrite HL2; lia). cbn [bind]. eexists. split; [reflexivity|].
  change (Z.to_nat 63) with 63%nat. rewrite firstn_all2, Nat.min_r by lia.
  apply (exact_after (Dyn 0 p (Some (splice (g p) 0 (cstr s1 ++ [0]))) local_init) (cstr s1) t).
  - repeat split; unfold chars; simpl; auto; try congruence; try lia.
  - apply holds_splice0. now apply cstr_nul_free.
  - eapply numeral_nul_free; eauto.
  - lia.
  - simpl. lia.
Qed.

(** ** Growing *)
Lemma grow_ok d size : sound d -> 1 <= size ->
  exists d', grow g d size = Ret d' /\ shape d' /\ logical d' = logical d /\ size <= physical d' /\ logical d <= physical d' /\
    nul_in (logical d) (chars d') /\ (forall s, holds (chars d) s -> holds (chars d') s).
Proof.
  intros (Hs & Hl & Hn) H1. unfold grow. destruct (Z.ltb_spec (physical d) size) as [H|H].
  2:{ exists d. split; [reflexivity|]. split; [auto|]. split; [auto|]. split; [lia|]. split; [lia|]. auto. }
  pose proof (physical_size_ge size) as Hp. set (p := Z.max (physical_size size) (physical d + physical d / 2)).
  assert (Hpp : size + 4 <= p) by lia. pose proof (Hg p ltac:(lia)) as Hgp.
  apply nul_in_text in Hn as Ht. destruct Ht as [H0 Ht]. destruct Hs as (L1 & L2 & L3).
  rewrite copy_text_at by (auto; lia). cbn [bind]. eexists. split; [reflexivity|].
  split. { repeat split; unfold chars at 1; simpl; auto; try congruence. rewrite splice_length by (rewrite app_length; simpl; lia). lia. }
  split; [reflexivity|]. split; [simpl; lia|]. split; [simpl; lia|]. unfold chars at 1. simpl.
  split; [apply splice_nul; lia|]. intros s Hs. apply holds_nul in Hs as Hc. destruct Hc as [_ <-].
  apply (holds_splice0 (g p)). now apply cstr_nul_free.
Qed.

(** Writing a text of at most [n] characters at the end and setting the size. *)
Lemma sound_end d t size : shape d -> 1 <= logical d -> logical d + Z.of_nat (length t) <= size -> size <= physical d ->
  sound (with_logical (with_chars d (splice (chars d) (Z.to_nat (logical d - 1)) (t ++ [0]))) size).
Proof.
  intros Hs Hl Hsz Hp. pose proof Hs as (_ & Hlen & _). split; [|split].
  - apply shape_logical, shape_with; [auto|]. apply splice_length. rewrite app_length. simpl. lia.
  - unfold with_logical. cbn [logical physical]. rewrite physical_with. lia.
  - rewrite chars_logical, chars_with. apply splice_nul; [lia|]. simpl. lia.
Qed.

Lemma append_text_ok d t size (f : list Z -> nat -> out (list Z)) : sound d -> nul_free t ->
  logical d + Z.of_nat (length t) <= size ->
  (forall b i, (i + length t + 1 <= length b)%nat -> f b i = Ret (splice b i (t ++ [0]))) ->
  exists d', (let! d := grow g d size in let! d := at_end d f in Ret (with_logical d size)) = Ret d' /\ sound d' /\
    (forall s, exact d s -> size = logical d + Z.of_nat (length t) -> exact d' (s ++ t)).
Proof.
  intros Hd Ht Hsz Hf. pose proof Hd as (_ & Hl & _).
  destruct (grow_ok d size Hd) as (d1 & E1 & Hs1 & Hl1 & Hp1 & Hp1' & Hn1 & Hk1); [lia|]. rewrite E1. cbn [bind].
  unfold at_end. rewrite Hl1. destruct (Z.ltb_spec (logical d) 1); [lia|].
  pose proof Hs1 as (_ & Hlen & _). rewrite Hf by lia. cbn [bind]. eexists. split; [reflexivity|]. split.
  - rewrite <- Hl1. apply sound_end; auto; lia.
  - intros s (_ & Hh & El) ->. replace (Z.to_nat (logical d - 1)) with (length s) by lia.
    apply exact_after; auto; lia.
Qed.

Lemma append_number_ok conv d n t : sound d -> numeral n t -> (length t <= 63)%nat ->
  (forall b i max, (i + Nat.min (Z.to_nat max) (length t) + 1 <= length b)%nat ->
     conv n b i max = Ret (splice b i (firstn (Z.to_nat max) t ++ [0]), Z.of_nat (Nat.min (Z.to_nat max) (length t)))) ->
  exists d', dyn_append_number g conv d n = Ret d' /\ sound d' /\ (forall s, exact d s -> exact d' (s ++ t)).
Proof.
  intros Hd Hn HL E. pose proof Hd as (_ & Hl & _). unfold dyn_append_number.
  destruct (grow_ok d (logical d + 64) Hd) as (d1 & E1 & Hs1 & Hl1 & Hp1 & Hp1' & Hn1 & Hk1); [lia|]. rewrite E1. cbn [bind].
  rewrite Hl1. destruct (Z.ltb_spec (logical d) 1); [lia|].
  pose proof Hs1 as (_ & Hlen & _). rewrite E by lia. cbn [bind]. eexists. split; [reflexivity|].
  change (Z.to_nat 63) with 63%nat. rewrite firstn_all2, Nat.min_r by lia. split.
  - rewrite <- Hl1. apply sound_end; auto; lia.
  - intros s (_ & Hh & El). replace (Z.to_nat (logical d - 1)) with (length s) by lia.
    apply exact_after; auto; try lia. eapply numeral_nul_free; eauto.
Qed.

Lemma with_logical_same d : with_logical d (logical d) = d.
Proof. now destruct d. Qed.

(** ** Operations with operands outside *)

Lemma dyn_text_ok d p : sound d -> In 0 p -> exists d', dyn_text g d p = Ret d' /\ exact d' (cstr p).
Proof.
  intros (Hs & _) Hp. unfold dyn_text. rewrite text_length by auto. cbn [bind]. destruct (Nat.ltb_spec 0 (length (cstr p))).
  - destruct (resize_ok d (Z.of_nat (length (cstr p)) + 1) Hs) as (Hs1 & Hl1 & Hp1); [lia|]. pose proof Hs1 as (_ & Hlen & _).
    rewrite copy_text_at by (auto; lia). cbn [bind]. eexists. split; [reflexivity|]. apply exact_sized; auto; try lia.
    now apply cstr_nul_free.
  - destruct (purge_ok d) as (d' & E & He); [apply Hs|]. exists d'. split; [auto|]. destruct (cstr p); [auto|simpl in *; lia].
Qed.

Lemma dyn_set_ok d p n : sound d -> In 0 p -> exists d', dyn_set g d p n = Ret d' /\ exact d' (firstn (Z.to_nat n) (cstr p)).
Proof.
  intros (Hs & _) Hp. unfold dyn_set. rewrite cut_length_ok by auto. cbn [bind].
  set (l := Nat.min (Z.to_nat n) (length (cstr p))).
  assert (El : firstn l (cstr p) = firstn (Z.to_nat n) (cstr p)).
  { subst l. destruct (le_lt_dec (Z.to_nat n) (length (cstr p))).
    - now rewrite Nat.min_l by lia.
    - rewrite Nat.min_r by lia. rewrite !firstn_all2 by lia. reflexivity. }
  destruct (Nat.ltb_spec 0 l).
  - destruct (resize_ok d (Z.of_nat l + 1) Hs) as (Hs1 & Hl1 & Hp1); [lia|]. pose proof Hs1 as (_ & Hlen & _).
    rewrite copy_text_max_at by (auto; lia). cbn [bind]. eexists. split; [reflexivity|]. rewrite Nat2Z.id, <- El.
    apply exact_sized; auto; try lia.
    + apply firstn_nul_free. now apply cstr_nul_free.
    + rewrite firstn_length. lia.
  - destruct (purge_ok d) as (d' & E & He); [apply Hs|]. exists d'. split; [auto|]. rewrite <- El. now replace l with 0%nat by lia.
Qed.

Lemma dyn_number_ok conv d n t : sound d -> numeral n t -> (length t <= 63)%nat ->
  (forall b i max, (i + Nat.min (Z.to_nat max) (length t) + 1 <= length b)%nat ->
     conv n b i max = Ret (splice b i (firstn (Z.to_nat max) t ++ [0]), Z.of_nat (Nat.min (Z.to_nat max) (length t)))) ->
  exists d', (let d := resize g d 64 in
    let! (b, l) := conv n (chars d) 0%nat 63 in Ret (with_logical (with_chars d b) (l + 1))) = Ret d' /\ exact d' t.
Proof.
  intros (Hs & _) Hn HL E. destruct (resize_ok d 64 Hs) as (Hs1 & Hl1 & Hp1); [lia|]. pose proof Hs1 as (_ & Hlen & _).
  cbv zeta. rewrite E by lia. cbn [bind]. eexists. split; [reflexivity|].
  change (Z.to_nat 63) with 63%nat. rewrite firstn_all2, Nat.min_r by lia.
  apply exact_store; auto; try lia. eapply numeral_nul_free; eauto.
Qed.

(** AppendString records [n] more characters even if the text is shorter. *)
Definition full_op (o : str_op) : Prop :=
  match o with OpAppendString p n => n <= Z.of_nat (length (cstr p)) | _ => True end.

Theorem dyn_op_ok d o : sound d -> operand_ok o -> exists d', dyn_op g d o = Ret d' /\ sound d' /\
  (forall s, exact d s -> full_op o -> exists s', meaning o s s' /\ exact d' s').
Proof.
  intros Hd Ho. destruct o as [p|p n|n|n|p|k|n|n|p n]; cbn [dyn_op operand_ok full_op] in *.
  - destruct (dyn_text_ok d p Hd Ho) as (d' & E & He). exists d'. split; [auto|]. split; [eapply exact_sound; eauto|].
    intros s _ _. eexists. split; [constructor|auto].
  - destruct (dyn_set_ok d p n Hd Ho) as (d' & E & He). exists d'. split; [auto|]. split; [eapply exact_sound; eauto|].
    intros s _ _. eexists. split; [constructor|auto].
  - destruct (integer_to_string_ok n Ho) as (t & Ht & HL & E).
    destruct (dyn_number_ok integer_to_string d n t Hd Ht ltac:(lia) E) as (d' & E' & He).
    exists d'. split; [auto|]. split; [eapply exact_sound; eauto|]. intros s _ _. eexists. split; [constructor; eauto|auto].
  - destruct (integer64_to_string_ok n Ho) as (t & Ht & HL & E).
    destruct (dyn_number_ok integer64_to_string d n t Hd Ht ltac:(lia) E) as (d' & E' & He).
    exists d'. split; [auto|]. split; [eapply exact_sound; eauto|]. intros s _ _. eexists. split; [constructor; eauto|auto].
  - unfold dyn_append. rewrite text_length by auto. cbn [bind]. destruct (Nat.ltb_spec 0 (length (cstr p))).
    + destruct (append_text_ok d (cstr p) (logical d + Z.of_nat (length (cstr p))) (copy_text p) Hd) as (d' & E & Hs & He);
        [now apply cstr_nul_free|lia|intros; now apply copy_text_at|].
      exists d'. split; [exact E|]. split; [auto|]. intros s Hx _. eexists. split; [constructor|]. apply He; auto.
    + exists d. split; [auto|]. split; [auto|]. intros s Hx _. eexists. split; [constructor|].
      destruct (cstr p); [now rewrite app_nil_r|simpl in *; lia].
  - destruct (append_text_ok d [k] (logical d + 1) (fun b i => let! b := wr b i k in wr b (S i) 0) Hd) as (d' & E & Hs & He).
    + repeat constructor. exact Ho.
    + simpl. lia.
    + intros b i Hb. simpl in Hb. rewrite wr_splice by lia. cbn [bind].
      rewrite wr_splice by (rewrite splice_length; simpl; lia). rewrite splice_splice by (simpl; lia). reflexivity.
    + exists d'. split; [exact E|]. split; [auto|]. intros s Hx _. eexists. split; [constructor|]. apply He; auto.
  - destruct (integer_to_string_ok n Ho) as (t & Ht & HL & E).
    destruct (append_number_ok integer_to_string d n t Hd Ht ltac:(lia) E) as (d' & E' & Hs & He).
    exists d'. split; [auto|]. split; [auto|]. intros s Hx _. eexists. split; [constructor; eauto|auto].
  - destruct (integer64_to_string_ok n Ho) as (t & Ht & HL & E).
    destruct (append_number_ok integer64_to_string d n t Hd Ht ltac:(lia) E) as (d' & E' & Hs & He).
    exists d'. split; [auto|]. split; [auto|]. intros s Hx _. eexists. split; [constructor; eauto|auto].
  - unfold dyn_append_string. destruct (Z.ltb_spec 0 n).
    + destruct (append_text_ok d (firstn (Z.to_nat n) (cstr p)) (logical d + n) (fun b i => copy_text_max p b i n) Hd) as (d' & E & Hs & He).
      * apply firstn_nul_free. now apply cstr_nul_free.
      * rewrite firstn_length. lia.
      * intros b i Hb. rewrite firstn_length in Hb. now apply copy_text_max_at.
      * exists d'. split; [exact E|]. split; [auto|]. intros s Hx Hf. eexists. split; [constructor|]. apply He; auto.
        rewrite firstn_length. lia.
    + exists d. split; [auto|]. split; [auto|]. intros s Hx _. eexists. split; [constructor|].
      replace (Z.to_nat n) with 0%nat by lia. rewrite firstn_O, app_nil_r. auto.
Qed.

(** ** Operations between two objects *)

Lemma dyn_assign_ok d s : sound d -> sound s -> exists d', dyn_assign g d s = Ret d' /\ sound d' /\
  (forall t, exact s t -> exact d' t).
Proof.
  intros (Hs & _) (Hss & Hl & Hn). unfold dyn_assign. apply nul_in_text in Hn as Ht. destruct Ht as [H0 Ht].
  destruct (Z.ltb_spec 1 (logical s)).
  - destruct (resize_ok d (logical s) Hs) as (Hs1 & Hl1 & Hp1); [lia|]. pose proof Hs1 as (_ & Hlen & _).
    rewrite copy_text_at by (auto; lia). cbn [bind]. eexists. split; [reflexivity|]. split.
    + split; [|split].
      * apply shape_with; [auto|]. apply splice_length. rewrite app_length. simpl. lia.
      * rewrite logical_with, physical_with. lia.
      * rewrite logical_with, chars_with, Hl1. apply splice_nul; lia.
    + intros t (_ & Hh & El). apply holds_nul in Hh as Hc. destruct Hc as [_ <-]. apply exact_sized; auto; try lia.
      now apply cstr_nul_free.
  - destruct (purge_ok d) as (d' & E & He); [apply Hs|]. exists d'. split; [auto|]. split; [eapply exact_sound; eauto|].
    intros t (_ & _ & El). destruct t; [auto|simpl in El; lia].
Qed.

Lemma dyn_append_dyn_ok d s : sound d -> sound s -> exists d', dyn_append_dyn g d s = Ret d' /\ sound d' /\
  (forall a t, exact d a -> exact s t -> exact d' (a ++ t)).
Proof.
  intros Hd (Hss & Hl & Hn). unfold dyn_append_dyn. apply nul_in_text in Hn as Ht. destruct Ht as [H0 Ht].
  destruct (Z.ltb_spec 0 (logical s - 1)).
  - destruct (append_text_ok d (cstr (chars s)) (logical d + (logical s - 1)) (copy_text (chars s)) Hd) as (d' & E & Hs & He);
      [now apply cstr_nul_free|lia|intros; now apply copy_text_at|].
    exists d'. split; [exact E|]. split; [auto|]. intros a t Ha (_ & Hh & El). apply holds_nul in Hh as Hc. destruct Hc as [_ <-].
    apply He; auto. lia.
  - exists d. split; [auto|]. split; [auto|]. intros a t Ha (_ & _ & El). destruct t; [now rewrite app_nil_r|simpl in El; lia].
Qed.

Lemma holds_cut b s n : holds b s -> (n <= length s)%nat -> holds (splice b n [0]) (firstn n s).
Proof.
  intros [Hs [r ->]] Hn. split; [now apply firstn_nul_free|]. unfold splice. rewrite firstn_app.
  replace (n - length s)%nat with 0%nat by lia. rewrite firstn_O, app_nil_r. eexists. reflexivity.
Qed.

Lemma set_length_ok d n : sound d -> n <= 0 \/ 16 <= n -> exists d', set_string_length g d n = Ret d' /\ sound d' /\
  (forall s, exact d s -> n <= Z.of_nat (length s) -> exact d' (firstn (Z.to_nat n) s)).
Proof.
  intros Hd Hn. pose proof Hd as (Hs & Hl & Hnul). pose proof Hs as (L1 & L2 & L3). unfold set_string_length.
  destruct (Z.ltb_spec 0 n) as [H0|H0].
  2:{ destruct (purge_ok d L1) as (d' & E & He). exists d'. split; [auto|]. split; [eapply exact_sound; eauto|].
      intros s _ _. replace (Z.to_nat n) with 0%nat by lia. rewrite firstn_O. auto. }
  destruct (Z.eqb_spec (n + 1) (logical d)) as [E1|E1]; simpl negb; cbv iota.
  { exists d. split; [auto|]. split; [auto|]. intros s He Hle. pose proof He as (_ & _ & El).
    rewrite firstn_all2 by lia. auto. }
  destruct (Z.ltb_spec 16 (n + 1)) as [H16|H16]; [|lia].
  apply nul_in_text in Hnul as Ht. destruct Ht as [Hin Ht].
  destruct (_ || _) eqn:Eg.
  - pose proof (physical_size_ge (n + 1)) as Hp. set (p := physical_size (n + 1)) in *. pose proof (Hg p ltac:(lia)) as Hgp.
    rewrite copy_text_max_at by (auto; lia). cbn [bind].
    set (t := firstn (Z.to_nat (Z.min n (logical d - 1))) (cstr (chars d))).
    assert (HtL : (length t <= Z.to_nat n)%nat) by (unfold t; rewrite firstn_length; lia).
    assert (HL : length (splice (g p) 0 (t ++ [0])) = length (g p)) by (apply splice_length; rewrite app_length; simpl; lia).
    set (d1 := Dyn (n + 1) p (Some (splice (g p) 0 (t ++ [0]))) (local d)).
    change (chars d1) with (splice (g p) 0 (t ++ [0])).
    rewrite wr_splice by lia. cbn [bind]. eexists. split; [reflexivity|]. unfold with_chars, d1. cbn [heap logical physical local].
    assert (HL2 : length (splice (splice (g p) 0 (t ++ [0])) (Z.to_nat n) [0]) = length (g p)).
    { rewrite splice_length; [auto|]. simpl. lia. }
    assert (Hsh : shape (Dyn (n + 1) p (Some (splice (splice (g p) 0 (t ++ [0])) (Z.to_nat n) [0])) (local d))).
    { split; [exact L1|]. split; [unfold chars; cbn [heap physical]; lia|]. simpl. discriminate. }
    split.
    + split; [exact Hsh|]. cbn [logical physical]. split; [lia|]. unfold chars. cbn [heap].
      apply (splice_nul (n + 1) _ (Z.to_nat n) []); simpl; lia.
    + intros s (_ & Hh & El) Hle. split; [exact Hsh|]. unfold chars. cbn [heap logical].
      apply holds_nul in Hh as Hc. destruct Hc as [_ Ec]. subst t. rewrite Ec in *. rewrite Z.min_l by lia.
      split; [|rewrite firstn_length; lia].
      replace (firstn (Z.to_nat n) s) with (firstn (Z.to_nat n) (firstn (Z.to_nat n) s)) at 2 by (rewrite firstn_firstn; f_equal; lia).
      apply holds_cut; [|rewrite firstn_length; lia]. apply holds_splice0. apply firstn_nul_free. apply Hh.
  - apply orb_false_iff in Eg as [Eg1 Eg2]. apply Z.ltb_ge in Eg1.
    cbn [bind]. rewrite chars_logical. rewrite wr_splice by lia. cbn [bind]. eexists. split; [reflexivity|].
    assert (HL2 : length (splice (chars d) (Z.to_nat n) [0]) = length (chars d)) by (apply splice_length; simpl; lia).
    assert (Hsh : shape (with_chars (with_logical d (n + 1)) (splice (chars d) (Z.to_nat n) [0]))).
    { apply shape_with; [apply shape_logical; auto|]. rewrite chars_logical. auto. }
    split.
    + split; [auto|]. rewrite logical_with, physical_with, chars_with. cbn [with_logical logical physical].
      split; [lia|]. apply (splice_nul (n + 1) _ (Z.to_nat n) []); simpl; lia.
    + intros s (_ & Hh & El) Hle. split; [auto|]. rewrite chars_with, logical_with. cbn [with_logical logical].
      split; [|rewrite firstn_length; lia]. apply holds_cut; [auto|lia].
Qed.

Lemma map_text_ok f b s r : nul_free s -> b = s ++ 0 :: r -> map_text f b = Ret (map f s ++ 0 :: r).
Proof.
  intros Hs ->. induction Hs as [|c s Hc Hs IH]; simpl; [reflexivity|].
  destruct (Z.eqb_spec c 0); [congruence|]. rewrite IH. reflexivity.
Qed.

Lemma dyn_map_ok f d : sound d -> exists d', dyn_map f d = Ret d' /\ sound d' /\
  (forall s, exact d s -> (forall c, In c s -> c <> 0 -> f c <> 0) -> exact d' (map f s)).
Proof.
  intros (Hs & Hl & Hn). apply nul_in_text in Hn as Ht. destruct Ht as [H0 Ht].
  destruct (cstr_nul _ H0) as (r & Er & Hnf). unfold dyn_map. rewrite (map_text_ok f _ _ _ Hnf Er). cbn [bind].
  eexists. split; [reflexivity|].
  assert (HL : length (map f (cstr (chars d)) ++ 0 :: r) = length (chars d)).
  { rewrite Er at 2. rewrite !app_length, map_length. reflexivity. }
  assert (Hsh : shape (with_chars d (map f (cstr (chars d)) ++ 0 :: r))) by (apply shape_with; auto).
  split.
  - split; [auto|]. rewrite logical_with, physical_with, chars_with. split; [auto|].
    exists (length (cstr (chars d))). split; [auto|]. rewrite nth_error_app2 by (rewrite map_length; lia).
    rewrite map_length, Nat.sub_diag. reflexivity.
  - intros s (_ & Hh & El) Hf. split; [auto|]. rewrite logical_with, chars_with, map_length. split; [|auto].
    apply holds_nul in Hh as Hc. destruct Hc as [_ Ec]. rewrite Ec in *. split; [|eauto].
    unfold nul_free in *. rewrite Forall_forall in *. intros x Hx. apply in_map_iff in Hx as (c & <- & Hc). apply Hf; auto.
Qed.

End Alloc.

(** ** Programs *)

(** Commands that keep every object sound; [n] objects exist. *)
Definition safe_cmd (n : nat) (c : cmd) : Prop :=
  match c with
  | NewEmpty => True
  | NewText p => In 0 p
  | NewPart p k => In 0 p /\ 0 <= k
  | NewInt k => - 2 ^ 31 < k < 2 ^ 31
  | NewInt64 k => - 2 ^ 63 < k < 2 ^ 63
  | NewCopy j | NewMove j => (j < n)%nat
  | NewConcat j p => (j < n)%nat /\ In 0 p
  | NewConcatInt j k => (j < n)%nat /\ - 2 ^ 31 < k < 2 ^ 31
  | NewConcatInt64 j k => (j < n)%nat /\ - 2 ^ 63 < k < 2 ^ 63
  | Do i o => (i < n)%nat /\ operand_ok o
  | Assign i j | Append i j => (i < n)%nat /\ (j < n)%nat /\ i <> j
  | Move i j => (i < n)%nat /\ (j < n)%nat
  | Length i k => (i < n)%nat /\ (k <= 0 \/ 16 <= k)
  | Purge i | Lower i | Upper i | Replace i _ _ => (i < n)%nat
  | Escape _ => False
  end.

(** Number of objects after a command. *)
Definition objects (n : nat) (c : cmd) : nat :=
  match c with
  | NewEmpty | NewText _ | NewPart _ _ | NewInt _ | NewInt64 _ | NewCopy _ | NewMove _
  | NewConcat _ _ | NewConcatInt _ _ | NewConcatInt64 _ _ => S n
  | _ => n
  end.

Fixpoint safe_program (n : nat) (cs : list cmd) : Prop :=
  match cs with [] => True | c :: cs' => safe_cmd n c /\ safe_program (objects n c) cs' end.

(** Commands whose effect on the texts [S] is the ordinary one. *)
Definition plain_cmd (S : list (list Z)) (c : cmd) : Prop :=
  safe_cmd (length S) c /\
  match c with
  | Do _ o => full_op o
  | Length i k => forall s, nth_error S i = Some s -> k <= Z.of_nat (length s)
  | Replace _ _ y => y <> 0
  | _ => True
  end.

Fixpoint plain_program (S : list (list Z)) (cs : list cmd) : Prop :=
  match cs with
  | [] => True
  | c :: cs' => plain_cmd S c /\ forall S', effect c S S' -> plain_program S' cs'
  end.

Inductive effects : list cmd -> list (list Z) -> list (list Z) -> Prop :=
| es_nil S : effects [] S S
| es_cons c cs S S1 S2 : effect c S S1 -> effects cs S1 S2 -> effects (c :: cs) S S2.

Lemma put_length {A} (l : list A) i x : (i < length l)%nat -> length (put l i x) = length l.
Proof. intros H. unfold put. rewrite app_length, firstn_length. cbn [length]. rewrite skipn_length. lia. Qed.

Lemma get_ok S i : (i < length S)%nat -> exists d, nth_error S i = Some d /\ get S i = Ret d.
Proof.
  intros H. unfold get. destruct (nth_error S i) as [d|] eqn:E; [eauto|]. apply nth_error_None in E. lia.
Qed.

Lemma Forall_put {A} (P : A -> Prop) l i x : Forall P l -> P x -> Forall P (put l i x).
Proof.
  intros H Hx. unfold put. apply Forall_app. split.
  - rewrite <- (firstn_skipn i l) in H. apply Forall_app in H. apply H.
  - constructor; [auto|]. rewrite <- (firstn_skipn (S i) l) in H. apply Forall_app in H. apply H.
Qed.

Lemma Forall2_firstn {A B} (R : A -> B -> Prop) l l' : Forall2 R l l' -> forall n, Forall2 R (firstn n l) (firstn n l').
Proof. induction 1; intros [|n]; simpl; constructor; auto. Qed.
Lemma Forall2_skipn {A B} (R : A -> B -> Prop) l l' : Forall2 R l l' -> forall n, Forall2 R (skipn n l) (skipn n l').
Proof. induction 1; intros [|n]; simpl; auto. Qed.

Lemma Forall2_put {A B} (R : A -> B -> Prop) l l' i x y : Forall2 R l l' -> R x y -> Forall2 R (put l i x) (put l' i y).
Proof.
  intros H Hx. unfold put. apply Forall2_app; [now apply Forall2_firstn|]. constructor; [auto|]. now apply (Forall2_skipn R l l' H (S i)).
Qed.

Lemma Forall2_nth {A B} (R : A -> B -> Prop) l l' i x : Forall2 R l l' -> nth_error l i = Some x ->
  exists y, nth_error l' i = Some y /\ R x y.
Proof. intros H. revert i. induction H; intros [|i] E; simpl in *; try discriminate; [injection E as ->; eauto|eauto]. Qed.

Lemma Forall_nth {A} (P : A -> Prop) l i x : Forall P l -> nth_error l i = Some x -> P x.
Proof. intros H E. rewrite Forall_forall in H. apply H. eapply nth_error_In; eauto. Qed.

Lemma snoc2 {A B} (R : A -> B -> Prop) l l' x y : Forall2 R l l' -> R x y -> Forall2 R (l ++ [x]) (l' ++ [y]).
Proof. intros H Hx. apply Forall2_app; auto. Qed.
Lemma snoc1 {A} (P : A -> Prop) l x : Forall P l -> P x -> Forall P (l ++ [x]).
Proof. intros H Hx. apply Forall_app; auto. Qed.

Lemma to_lower_ok c : to_lower c = lower c.
Proof.
  unfold to_lower, lower. destruct (Z.leb_spec 65 c), (Z.leb_spec c 90), (Z.leb_spec 0 (c - 65)), (Z.ltb_spec (c - 65) 26);
    simpl; lia.
Qed.
Lemma to_upper_ok c : to_upper c = upper c.
Proof.
  unfold to_upper, upper. destruct (Z.leb_spec 97 c), (Z.leb_spec c 122), (Z.leb_spec 0 (c - 97)), (Z.ltb_spec (c - 97) 26);
    simpl; lia.
Qed.

Lemma nth_put_eq {A} (l : list A) i x : (i < length l)%nat -> nth_error (put l i x) i = Some x.
Proof.
  intros H. unfold put. rewrite nth_error_app2 by (rewrite firstn_length; lia). rewrite firstn_length.
  now replace (i - Nat.min i (length l))%nat with 0%nat by lia.
Qed.

Section Run.
Variable g : Z -> list Z.
Hypothesis Hg : forall n, 0 <= n -> Z.of_nat (length (g n)) = n.

Ltac obj S j H := let d := fresh "d" in let E := fresh "E" in let G := fresh "G" in
  destruct (get_ok S j H) as (d & E & G); rewrite G; cbn [bind].

(** One safe command: no undefined behaviour, and all objects stay sound. If the
    objects hold the texts [T] and the command is plain on them, the new objects
    hold the texts after its effect. *)
Theorem dyn_cmd_ok c S : Forall sound S -> safe_cmd (length S) c ->
  exists S', dyn_cmd g c S = Ret S' /\ length S' = objects (length S) c /\ Forall sound S' /\
    (forall T, Forall2 exact S T -> plain_cmd T c -> exists T', effect c T T' /\ Forall2 exact S' T').
Proof.
  intros HS Hc. destruct c; cbn [safe_cmd dyn_cmd objects] in *.
  - destruct new_empty_ok as (d & E & He). rewrite E. cbn [bind]. eexists. split; [reflexivity|].
    split; [rewrite app_length; simpl; lia|]. split; [apply snoc1; eauto using exact_sound|].
    intros T HT _. eexists. split; [constructor|]. now apply snoc2.
  - destruct (new_text_ok g Hg p Hc) as (d & E & He). rewrite E. cbn [bind]. eexists. split; [reflexivity|].
    split; [rewrite app_length; simpl; lia|]. split; [apply snoc1; eauto using exact_sound|].
    intros T HT _. eexists. split; [constructor|]. now apply snoc2.
  - destruct Hc as [Hp Hn]. destruct (new_part_ok g Hg p n Hp Hn) as (d & E & He). rewrite E. cbn [bind]. eexists. split; [reflexivity|].
    split; [rewrite app_length; simpl; lia|]. split; [apply snoc1; eauto using exact_sound|].
    intros T HT _. eexists. split; [constructor|]. now apply snoc2.
  - destruct (new_int_ok g Hg n Hc) as (d & t & E & Hn & He). rewrite E. cbn [bind]. eexists. split; [reflexivity|].
    split; [rewrite app_length; simpl; lia|]. split; [apply snoc1; eauto using exact_sound|].
    intros T HT _. eexists. split; [constructor; eauto|]. now apply snoc2.
  - destruct (new_int64_ok g Hg n Hc) as (d & t & E & Hn & He). rewrite E. cbn [bind]. eexists. split; [reflexivity|].
    split; [rewrite app_length; simpl; lia|]. split; [apply snoc1; eauto using exact_sound|].
    intros T HT _. eexists. split; [constructor; eauto|]. now apply snoc2.
  - obj S j Hc. destruct (new_copy_ok g Hg d) as (d' & E' & Hd' & He); [eapply Forall_nth; eauto|]. rewrite E'. cbn [bind].
    eexists. split; [reflexivity|]. split; [rewrite app_length; simpl; lia|]. split; [apply snoc1; auto|].
    intros T HT _. destruct (Forall2_nth _ _ _ _ _ HT E) as (t & Et & Hx). eexists. split; [econstructor; eauto|]. apply snoc2; auto.
  - obj S j Hc. destruct (new_move_ok d) as (d' & s' & E' & Hd' & Hs' & He); [eapply Forall_nth; eauto|]. rewrite E'. cbn [bind].
    eexists. split; [reflexivity|]. split; [rewrite app_length, put_length by auto; simpl; lia|].
    split; [apply snoc1; auto; now apply Forall_put|].
    intros T HT _. destruct (Forall2_nth _ _ _ _ _ HT E) as (t & Et & Hx). destruct (He t Hx) as [He1 He2].
    destruct He2 as [He2|He2].
    + eexists. split; [eapply e_newmove with (s' := t); eauto|]. apply snoc2; auto. now apply Forall2_put.
    + eexists. split; [eapply e_newmove with (s' := []); eauto|]. apply snoc2; auto. now apply Forall2_put.
  - destruct Hc as [Hj Hp]. obj S j Hj. assert (Hd : sound d) by (eapply Forall_nth; eauto).
    pose proof Hd as (_ & _ & Hn). apply nul_in_text in Hn as [H0 _].
    destruct (new_concat_ok g Hg (chars d) p H0 Hp) as (d' & E' & He). rewrite E'. cbn [bind].
    eexists. split; [reflexivity|]. split; [rewrite app_length; simpl; lia|]. split; [apply snoc1; eauto using exact_sound|].
    intros T HT _. destruct (Forall2_nth _ _ _ _ _ HT E) as (t & Et & Hx). eexists. split; [econstructor; eauto|]. apply snoc2; auto.
    destruct Hx as (_ & Hh & _). apply holds_nul in Hh as [_ <-]. auto.
  - destruct Hc as [Hj Hr]. obj S j Hj. assert (Hd : sound d) by (eapply Forall_nth; eauto).
    pose proof Hd as (_ & _ & Hn). apply nul_in_text in Hn as [H0 _].
    destruct (integer_to_string_ok n Hr) as (t & Ht & HL & Ei).
    destruct (new_concat_number_ok g Hg integer_to_string n t (chars d) H0 Ht ltac:(lia) Ei) as (d' & E' & He).
    change (new_concat_int g n (chars d) = Ret d') in E'. rewrite E'. cbn [bind].
    eexists. split; [reflexivity|]. split; [rewrite app_length; simpl; lia|]. split; [apply snoc1; eauto using exact_sound|].
    intros T HT _. destruct (Forall2_nth _ _ _ _ _ HT E) as (s & Es & Hx). eexists. split; [econstructor; eauto|]. apply snoc2; auto.
    destruct Hx as (_ & Hh & _). apply holds_nul in Hh as [_ <-]. auto.
  - destruct Hc as [Hj Hr]. obj S j Hj. assert (Hd : sound d) by (eapply Forall_nth; eauto).
    pose proof Hd as (_ & _ & Hn). apply nul_in_text in Hn as [H0 _].
    destruct (integer64_to_string_ok n Hr) as (t & Ht & HL & Ei).
    destruct (new_concat_number_ok g Hg integer64_to_string n t (chars d) H0 Ht ltac:(lia) Ei) as (d' & E' & He).
    change (new_concat_int64 g n (chars d) = Ret d') in E'. rewrite E'. cbn [bind].
    eexists. split; [reflexivity|]. split; [rewrite app_length; simpl; lia|]. split; [apply snoc1; eauto using exact_sound|].
    intros T HT _. destruct (Forall2_nth _ _ _ _ _ HT E) as (s & Es & Hx). eexists. split; [econstructor; eauto|]. apply snoc2; auto.
    destruct Hx as (_ & Hh & _). apply holds_nul in Hh as [_ <-]. auto.
  - destruct Hc as [Hi Ho]. obj S i Hi. assert (Hd : sound d) by (eapply Forall_nth; eauto).
    destruct (dyn_op_ok g Hg d o Hd Ho) as (d' & E' & Hd' & He). rewrite E'. cbn [bind].
    eexists. split; [reflexivity|]. split; [now rewrite put_length|]. split; [now apply Forall_put|].
    intros T HT [_ Hf]. destruct (Forall2_nth _ _ _ _ _ HT E) as (s & Es & Hx). destruct (He s Hx Hf) as (s' & Hm & Hx').
    eexists. split; [econstructor; eauto|]. now apply Forall2_put.
  - destruct Hc as (Hi & Hj & Hij). obj S i Hi. obj S j Hj. destruct (Nat.eqb_spec i j); [congruence|].
    destruct (dyn_assign_ok g Hg d d0) as (d' & E' & Hd' & He); [eapply Forall_nth; eauto|eapply Forall_nth; eauto|]. rewrite E'. cbn [bind].
    eexists. split; [reflexivity|]. split; [now rewrite put_length|]. split; [now apply Forall_put|].
    intros T HT _. destruct (Forall2_nth _ _ _ _ _ HT E) as (s & Es & Hx). destruct (Forall2_nth _ _ _ _ _ HT E0) as (s0 & Es0 & Hx0).
    eexists. split; [econstructor; eauto|]. apply Forall2_put; auto.
  - destruct Hc as (Hi & Hj). obj S i Hi. obj S j Hj. destruct (Nat.eqb_spec i j) as [->|Hij].
    + destruct (dyn_move_self_ok d) as (d' & E' & Hd' & He); [eapply Forall_nth; eauto|]. rewrite E'. cbn [bind].
      eexists. split; [reflexivity|]. split; [now rewrite put_length|]. split; [now apply Forall_put|].
      intros T HT _. destruct (Forall2_nth _ _ _ _ _ HT E) as (s & Es & Hx).
      assert (P : forall x y : list Z, put (put T j x) j y = put T j y).
      { intros x y. assert (j < length T)%nat by (apply nth_error_Some; congruence). unfold put.
        rewrite firstn_app, firstn_firstn, Nat.min_id, firstn_length.
        replace (j - Nat.min j (length T))%nat with 0%nat by lia. rewrite firstn_O, app_nil_r. f_equal. f_equal.
        rewrite skipn_app, firstn_length. rewrite skipn_all2 by (rewrite firstn_length; lia).
        replace (Datatypes.S j - Nat.min j (length T))%nat with 1%nat by lia. reflexivity. }
      destruct (He s Hx) as [H1|H1].
      * exists (put (put T j s) j s). split; [econstructor; eauto|]. rewrite P. now apply Forall2_put.
      * exists (put (put T j s) j []). split; [econstructor; eauto|]. rewrite P. now apply Forall2_put.
    + destruct (dyn_move_ok d d0) as (d' & s' & E' & Hd' & Hs' & He); [eapply Forall_nth; eauto|eapply Forall_nth; eauto|]. rewrite E'. cbn [bind].
      eexists. split; [reflexivity|]. split; [now rewrite !put_length by (rewrite ?put_length; auto)|].
      split; [apply Forall_put; auto; now apply Forall_put|].
      intros T HT _. destruct (Forall2_nth _ _ _ _ _ HT E) as (s & Es & Hx). destruct (Forall2_nth _ _ _ _ _ HT E0) as (s0 & Es0 & Hx0).
      destruct (He s0 Hx0) as [He1 [He2|He2]].
      * eexists. split; [eapply e_move with (s' := s0); eauto|]. apply Forall2_put; auto. now apply Forall2_put.
      * eexists. split; [eapply e_move with (s' := []); eauto|]. apply Forall2_put; auto. now apply Forall2_put.
  - destruct Hc as (Hi & Hj & Hij). obj S i Hi. obj S j Hj. destruct (Nat.eqb_spec i j); [congruence|].
    destruct (dyn_append_dyn_ok g Hg d d0) as (d' & E' & Hd' & He); [eapply Forall_nth; eauto|eapply Forall_nth; eauto|]. rewrite E'. cbn [bind].
    eexists. split; [reflexivity|]. split; [now rewrite put_length|]. split; [now apply Forall_put|].
    intros T HT _. destruct (Forall2_nth _ _ _ _ _ HT E) as (s & Es & Hx). destruct (Forall2_nth _ _ _ _ _ HT E0) as (s0 & Es0 & Hx0).
    eexists. split; [econstructor; eauto|]. apply Forall2_put; auto.
  - destruct Hc as (Hi & Hn). obj S i Hi.
    destruct (set_length_ok g Hg d n) as (d' & E' & Hd' & He); [eapply Forall_nth; eauto|auto|]. rewrite E'. cbn [bind].
    eexists. split; [reflexivity|]. split; [now rewrite put_length|]. split; [now apply Forall_put|].
    intros T HT [_ Hf]. destruct (Forall2_nth _ _ _ _ _ HT E) as (s & Es & Hx).
    eexists. split; [econstructor; eauto|]. apply Forall2_put; auto.
  - obj S i Hc. destruct (purge_ok d) as (d' & E' & He); [apply (Forall_nth _ _ _ _ HS E)|]. rewrite E'. cbn [bind].
    eexists. split; [reflexivity|]. split; [now rewrite put_length|]. split; [apply Forall_put; eauto using exact_sound|].
    intros T HT _. destruct (Forall2_nth _ _ _ _ _ HT E) as (s & Es & Hx).
    eexists. split; [econstructor; eauto|]. apply Forall2_put; auto.
  - obj S i Hc. destruct (dyn_map_ok to_lower d) as (d' & E' & Hd' & He); [eapply Forall_nth; eauto|]. rewrite E'. cbn [bind].
    eexists. split; [reflexivity|]. split; [now rewrite put_length|]. split; [now apply Forall_put|].
    intros T HT _. destruct (Forall2_nth _ _ _ _ _ HT E) as (s & Es & Hx).
    eexists. split; [econstructor; eauto|]. apply Forall2_put; auto.
    rewrite <- (map_ext _ _ to_lower_ok). apply He; auto. intros c _ Hz. rewrite to_lower_ok. unfold lower.
    destruct (Z.leb_spec 65 c), (Z.leb_spec c 90); simpl; lia.
  - obj S i Hc. destruct (dyn_map_ok to_upper d) as (d' & E' & Hd' & He); [eapply Forall_nth; eauto|]. rewrite E'. cbn [bind].
    eexists. split; [reflexivity|]. split; [now rewrite put_length|]. split; [now apply Forall_put|].
    intros T HT _. destruct (Forall2_nth _ _ _ _ _ HT E) as (s & Es & Hx).
    eexists. split; [econstructor; eauto|]. apply Forall2_put; auto.
    rewrite <- (map_ext _ _ to_upper_ok). apply He; auto. intros c _ Hz. rewrite to_upper_ok. unfold upper.
    destruct (Z.leb_spec 97 c), (Z.leb_spec c 122); simpl; lia.
  - obj S i Hc. destruct (dyn_map_ok (fun c => if c =? x then y else c) d) as (d' & E' & Hd' & He); [eapply Forall_nth; eauto|]. rewrite E'. cbn [bind].
    eexists. split; [reflexivity|]. split; [now rewrite put_length|]. split; [now apply Forall_put|].
    intros T HT [_ Hy]. destruct (Forall2_nth _ _ _ _ _ HT E) as (s & Es & Hx).
    eexists. split; [econstructor; eauto|]. apply Forall2_put; auto.
    apply He; auto. intros c _ Hz. destruct (c =? x); auto.
  - destruct Hc.
Qed.
End Run.

Definition allocates (g : nat -> Z -> list Z) : Prop := forall k n, 0 <= n -> Z.of_nat (length (g k n)) = n.

Theorem safe_run_ok g cs : allocates g -> forall k S, Forall sound S -> safe_program (length S) cs ->
  exists S', dyn_run g k cs S = Ret S' /\ Forall sound S'.
Proof.
  intros Hg. induction cs as [|c cs IH]; intros k S HS Hc; [exists S; split; [reflexivity|exact HS]|]. destruct Hc as [Hc Hcs].
  destruct (dyn_cmd_ok (g k) (Hg k) c S HS Hc) as (S1 & E1 & HL & HS1 & _). cbn [dyn_run]. rewrite E1. cbn [bind].
  apply IH; auto. now rewrite HL.
Qed.

Theorem plain_run_ok g cs : allocates g -> forall k S T, Forall2 exact S T -> plain_program T cs ->
  exists S' T', dyn_run g k cs S = Ret S' /\ effects cs T T' /\ Forall2 exact S' T'.
Proof.
  intros Hg. induction cs as [|c cs IH]; intros k S T HT Hc; [exists S, T; repeat split; auto; constructor|].
  destruct Hc as [Hc Hcs].
  assert (HS : Forall sound S) by (clear - HT; induction HT; constructor; eauto using exact_sound).
  assert (HL : length S = length T) by (clear - HT; induction HT; simpl; lia).
  destruct (dyn_cmd_ok (g k) (Hg k) c S HS) as (S1 & E1 & _ & HS1 & He). { rewrite HL. apply Hc. }
  destruct (He T HT Hc) as (T1 & Ht1 & HT1). destruct (IH (Datatypes.S k) S1 T1 HT1 (Hcs T1 Ht1)) as (S2 & T2 & E2 & Ht2 & HT2).
  exists S2, T2. cbn [dyn_run]. rewrite E1. cbn [bind]. repeat split; auto. econstructor; eauto.
Qed.
