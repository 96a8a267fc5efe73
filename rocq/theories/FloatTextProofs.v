(** * Proofs about FloatToString: the storage, the digits of the fraction, rounding. *)

From Verif Require Import Base Str TextModel StringModel SpecNum SpecText DynModel FloatTextModel SpecFloatText.
From Verif Require Import StrtodProofs FormatProofs StringProofs.

(** ** A text under construction *)

(** [t] has been written; up to position [M] anything may be written; the bytes [tl]
    behind are not touched. *)
Definition st (M : nat) (tl t b : list Z) : Prop :=
  exists junk, b = t ++ junk ++ tl /\ (length t + length junk = S M)%nat.

Lemma st_start M b : (M < length b)%nat -> st M (skipn (S M) b) [] b.
Proof.
  intros H. exists (firstn (S M) b). split; [symmetry; apply firstn_skipn|]. rewrite firstn_length. cbn [length]. lia.
Qed.

Lemma st_wr M tl t b c : st M tl t b -> (length t <= M)%nat ->
  exists b', wr b (length t) c = Ret b' /\ st M tl (t ++ [c]) b'.
Proof.
  intros (j & -> & L) H. destruct j as [|x j]; [simpl in L; lia|]. cbn [app].
  rewrite wr_app. eexists. split; [reflexivity|]. exists j. split; [now rewrite <- app_assoc|].
  rewrite app_length. simpl in *. lia.
Qed.

Lemma st_rd M tl t b i c : st M tl t b -> nth_error t i = Some c -> rd b i = Ret c.
Proof.
  intros (j & -> & L) H. unfold rd. rewrite nth_error_app1; [now rewrite H|]. apply nth_error_Some. congruence.
Qed.

Lemma st_cut M tl t t' b : st M tl (t ++ t') b -> st M tl t b.
Proof.
  intros (j & -> & L). exists (t' ++ j). split; [now rewrite <- !app_assoc|]. rewrite app_length in *. lia.
Qed.

Lemma st_length M tl t b : st M tl t b -> (length t <= S M)%nat.
Proof. intros (j & _ & L). lia. Qed.

Lemma splice_app p q j s : length s = length q -> splice (p ++ q ++ j) (length p) s = p ++ s ++ j.
Proof.
  intros L. unfold splice. rewrite firstn_app, firstn_all, Nat.sub_diag, firstn_O, app_nil_r. f_equal. f_equal.
  rewrite skipn_app. rewrite skipn_all2 by lia. replace (length p + length s - length p)%nat with (length q) by lia.
  rewrite skipn_app, skipn_all, Nat.sub_diag. reflexivity.
Qed.

Lemma st_int M tl t b n : st M tl t b -> (length t <= M)%nat -> - 2 ^ 31 < n < 2 ^ 31 ->
  exists w b', numeral n w /\
    integer_to_string n b (length t) (Z.of_nat M - Z.of_nat (length t)) = Ret (b', Z.of_nat (length (firstn (M - length t) w))) /\
    st M tl (t ++ firstn (M - length t) w ++ [0]) b'.
Proof.
  intros (j & -> & L) H Hn. destruct (integer_to_string_ok n Hn) as (w & Hw & _ & E). exists w.
  specialize (E (t ++ j ++ tl) (length t) (Z.of_nat M - Z.of_nat (length t))).
  replace (Z.to_nat (Z.of_nat M - Z.of_nat (length t))) with (M - length t)%nat in E by lia.
  set (q := firstn (M - length t) w ++ [0]) in *.
  assert (Q : length q = (Nat.min (M - length t) (length w) + 1)%nat) by (subst q; rewrite app_length, firstn_length; reflexivity).
  eexists. split; [exact Hw|]. rewrite E by (rewrite !app_length; lia). rewrite firstn_length. split; [reflexivity|].
  rewrite <- (firstn_skipn (length q) j), <- app_assoc. rewrite splice_app by (rewrite firstn_length; lia).
  exists (skipn (length q) j). split; [now rewrite <- !app_assoc|]. rewrite app_length, skipn_length. lia.
Qed.

(** ** Numbers *)

Lemma digit_ok d : 0 <= d < 10 -> digit (d + 48).
Proof. unfold digit. lia. Qed.

Lemma dvalue_snoc ds d : dvalue (ds ++ [d]) = 10 * dvalue ds + (d - 48).
Proof. rewrite dvalue_app. simpl. rewrite Z.pow_0_r. change (Z.of_nat 1) with 1. rewrite Z.pow_1_r. lia. Qed.

Lemma digits_snoc ds d : digits ds -> digit d -> digits (ds ++ [d]).
Proof. intros A B. apply Forall_app. split; [exact A|constructor; [exact B|constructor]]. Qed.

(** ** The digits of the fraction *)

(** [n] rounds at most, starting with [m]: the digits, and why the loop ended. *)
Definition fraction (n : nat) (room : nat) (m : Z) (ds : list Z) : Prop :=
  digits ds /\ (length ds <= n)%nat /\
  exists r, 0 <= r < 2 ^ 23 /\ m * 10 ^ Z.of_nat (length ds) = dvalue ds * 2 ^ 23 + r /\
    ((room <= length ds)%nat \/ r < 2 \/ (n <= length ds + 2)%nat) /\
    (forall i, (0 < i < length ds)%nat -> 2 <= (m * 10 ^ Z.of_nat i) mod 2 ^ 23) /\
    ((0 < n)%nat -> (0 < room)%nat -> ds <> []).

Lemma fraction_cons n room m ds : 0 <= m < 2 ^ 23 -> (0 < room)%nat -> 2 <= (m * 10) mod 2 ^ 23 ->
  fraction n (room - 1) ((m * 10) mod 2 ^ 23) ds -> fraction (S n) room m (m * 10 / 2 ^ 23 + 48 :: ds).
Proof.
  intros Hm Hr H2 (D & L & r & R & E & S & I & N).
  assert (Hd : 0 <= m * 10 / 2 ^ 23 < 10).
  { split; [apply Z.div_pos; lia|apply Z.div_lt_upper_bound; lia]. }
  pose proof (Z.div_mod (m * 10) (2 ^ 23) ltac:(lia)) as DM.
  split; [constructor; [now apply digit_ok|exact D]|]. split; [simpl; lia|]. exists r. split; [exact R|].
  split; [|split; [simpl; lia|split; [|discriminate]]].
  - simpl length. replace (Z.of_nat (Datatypes.S (length ds))) with (1 + Z.of_nat (length ds)) by lia.
    rewrite Z.pow_add_r, Z.pow_1_r by lia. cbn [dvalue]. rewrite Z.mul_assoc.
    replace (m * 10) with (2 ^ 23 * (m * 10 / 2 ^ 23) + (m * 10) mod 2 ^ 23) at 1 by lia.
    rewrite Z.mul_add_distr_r, E. lia.
  - intros i Hi. destruct i as [|[|i]]; [lia| |].
    + change (Z.of_nat 1) with 1. rewrite Z.pow_1_r. exact H2.
    + specialize (I (Datatypes.S i) ltac:(simpl in Hi; lia)).
      replace (Z.of_nat (Datatypes.S (Datatypes.S i))) with (1 + Z.of_nat (Datatypes.S i)) by lia.
      rewrite Z.pow_add_r, Z.pow_1_r by lia. rewrite Z.mul_assoc. rewrite <- Z.mul_mod_idemp_l by lia. exact I.
Qed.

Lemma fraction_one n room m : 0 <= m < 2 ^ 23 -> (0 < room)%nat ->
  (m * 10) mod 2 ^ 23 < 2 \/ (S n <= 3)%nat -> fraction (S n) room m [m * 10 / 2 ^ 23 + 48].
Proof.
  intros Hm Hr H.
  assert (Hd : 0 <= m * 10 / 2 ^ 23 < 10).
  { split; [apply Z.div_pos; lia|apply Z.div_lt_upper_bound; lia]. }
  pose proof (Z.div_mod (m * 10) (2 ^ 23) ltac:(lia)) as DM. pose proof (Z.mod_pos_bound (m * 10) (2 ^ 23) ltac:(lia)).
  split; [constructor; [now apply digit_ok|constructor]|]. split; [simpl; lia|]. exists ((m * 10) mod 2 ^ 23).
  split; [lia|]. simpl length. change (Z.of_nat 1) with 1. rewrite Z.pow_1_r. simpl. rewrite Z.pow_0_r.
  split; [lia|]. split; [lia|]. split; [intros i Hi; lia|]. discriminate.
Qed.

Lemma fraction_none n room m : 0 <= m < 2 ^ 23 -> n = 0%nat \/ room = 0%nat -> fraction n room m [].
Proof.
  intros Hm H. split; [constructor|]. split; [simpl; lia|]. exists m. simpl. rewrite Z.pow_0_r.
  split; [lia|]. split; [lia|]. split; [lia|]. split; [intros; lia|]. lia.
Qed.

Lemma fraction_loop_ok M tl n : forall m z k b t, 0 <= m < 2 ^ 23 -> st M tl t b -> (length t <= M)%nat ->
  exists ds b', fraction_loop n m z k b (length t) (Z.of_nat M) = Ret (b', length (t ++ ds)) /\
    st M tl (t ++ ds) b' /\ fraction n (M - length t) m ds /\ (length (t ++ ds) <= M)%nat.
Proof.
  induction n as [|n IH]; intros m z k b t Hm S H.
  - exists [], b. rewrite app_nil_r. split; [reflexivity|]. split; [exact S|]. split; [apply fraction_none; auto|exact H].
  - cbn [fraction_loop]. destruct (Z.ltb_spec (Z.of_nat (length t)) (Z.of_nat M)) as [Hl|Hl]; cbn [negb].
    2: { exists [], b. rewrite app_nil_r. split; [reflexivity|]. split; [exact S|]. split; [|exact H]. apply fraction_none; [exact Hm|right; lia]. }
    cbv zeta. rewrite Z.shiftr_div_pow2 by lia. change 0x007FFFFF with (Z.ones 23). rewrite Z.land_ones by lia.
    set (c := m * 10 / 2 ^ 23 + 48).
    destruct (st_wr M tl t b c S H) as (b1 & E1 & S1). rewrite E1. cbn [bind].
    assert (L1 : length (t ++ [c]) = Datatypes.S (length t)) by (rewrite app_length; simpl; lia).
    assert (One : (m * 10) mod 2 ^ 23 < 2 \/ (Datatypes.S n <= 3)%nat -> exists ds b',
      Ret (b1, Datatypes.S (length t)) = Ret (b', length (t ++ ds)) /\
      st M tl (t ++ ds) b' /\ fraction (Datatypes.S n) (M - length t) m ds /\ (length (t ++ ds) <= M)%nat).
    { intros Q. exists [c], b1. rewrite L1. split; [reflexivity|]. split; [exact S1|]. split; [|lia]. apply fraction_one; [exact Hm|lia|exact Q]. }
    destruct ((c =? 48) && _ && (Datatypes.S n <=? 3)%nat) eqn:C1.
    { apply One. right. apply andb_prop in C1. destruct C1 as [_ C1]. now apply Nat.leb_le in C1. }
    destruct ((c =? 57) && _ && (Datatypes.S n <=? 3)%nat) eqn:C2.
    { apply One. right. apply andb_prop in C2. destruct C2 as [_ C2]. now apply Nat.leb_le in C2. }
    destruct (Z.ltb_spec ((m * 10) mod 2 ^ 23) 2) as [R|R]; [apply One; now left|].
    rewrite <- L1. pose proof (Z.mod_pos_bound (m * 10) (2 ^ 23) ltac:(lia)) as Hm1.
    destruct (IH _ (if c =? 48 then z + 1 else z) (if c =? 57 then k + 1 else k) b1 (t ++ [c]) Hm1 S1 ltac:(lia)) as (ds & b2 & E2 & S2 & F2 & K2).
    exists (c :: ds), b2. replace (t ++ c :: ds) with ((t ++ [c]) ++ ds) by (rewrite <- app_assoc; reflexivity).
    split; [exact E2|]. split; [exact S2|]. split; [|exact K2].
    apply fraction_cons; auto; [lia|]. replace (M - length t - 1)%nat with (M - length (t ++ [c]))%nat by lia. exact F2.
Qed.

(** ** Rounding and trailing zeros *)

Lemma nth_last (t : list Z) c : nth_error (t ++ [c]) (length t) = Some c.
Proof. rewrite nth_error_app2, Nat.sub_diag by lia. reflexivity. Qed.

Lemma zero_loop_ok M tl b : forall ds p, st M tl (p ++ 46 :: ds) b -> digits ds ->
  exists ds', zero_loop (length (p ++ 46 :: ds)) b = Ret (length (p ++ 46 :: ds')) /\
    (exists k, ds = ds' ++ repeat 48 k) /\ (ds' = [] \/ exists e d, ds' = e ++ [d] /\ d <> 48).
Proof.
  intros ds. induction ds as [|d ds IH] using rev_ind; intros p S D.
  - exists []. split; [|split; [exists 0%nat; reflexivity|now left]].
    replace (length (p ++ [46%Z])) with (Datatypes.S (length p)) by (rewrite app_length; simpl; lia).
    cbn [zero_loop]. rewrite (st_rd M tl _ b (length p) 46 S (nth_last p 46)). reflexivity.
  - apply Forall_app in D. destruct D as [D Dd].
    assert (E : p ++ 46%Z :: ds ++ [d] = (p ++ 46%Z :: ds) ++ [d]) by (rewrite <- app_assoc; reflexivity). rewrite E in *.
    replace (length ((p ++ 46%Z :: ds) ++ [d])) with (Datatypes.S (length (p ++ 46%Z :: ds))) by (rewrite (app_length (p ++ 46%Z :: ds)); simpl; lia).
    cbn [zero_loop]. rewrite (st_rd M tl _ b _ d S (nth_last _ d)). cbn [bind].
    destruct (Z.eqb_spec d 48) as [->|N].
    + destruct (IH p (st_cut _ _ _ _ _ S) D) as (ds' & E' & (k & K) & Q). exists ds'. split; [exact E'|].
      split; [|exact Q]. exists (k + 1)%nat. rewrite K, repeat_app, app_assoc. reflexivity.
    + exists (ds ++ [d]). rewrite E. split; [f_equal; rewrite (app_length (p ++ 46 :: ds)); simpl; lia|].
      split; [exists 0%nat; simpl; now rewrite app_nil_r|]. right. eauto.
Qed.

(** [e] is the part of the digits before the nines. *)
Lemma carry_loop_ok M tl b : forall ds p nines, st M tl (p ++ 46 :: ds ++ nines) b -> digits ds ->
  let len := length (p ++ 46 :: ds ++ nines) in
  exists b' ds', carry_loop (length (p ++ 46 :: ds)) b len = Ret (b', length (p ++ 46 :: ds')) /\ st M tl (p ++ 46 :: ds') b' /\
    ((exists k, ds = repeat 57 k) /\ ds' = ds ++ nines \/
     exists e x k, ds = e ++ x :: repeat 57 k /\ digit x /\ x <> 57 /\ ds' = e ++ [x + 1]).
Proof.
  intros ds. induction ds as [|d ds IH] using rev_ind; intros p nines S D len.
  - exists b, nines. split; [|split; [exact S|left; split; [exists 0%nat; reflexivity|reflexivity]]].
    replace (length (p ++ [46%Z])) with (Datatypes.S (length p)) by (rewrite app_length; simpl; lia).
    cbn [carry_loop]. assert (N : nth_error (p ++ 46%Z :: [] ++ nines) (length p) = Some 46) by (rewrite nth_error_app2, Nat.sub_diag by lia; reflexivity).
    rewrite (st_rd M tl _ b _ _ S N). reflexivity.
  - apply Forall_app in D. destruct D as [D Dd]. inversion Dd as [|? ? Dd1 _]; subst.
    assert (L : length (p ++ 46%Z :: ds ++ [d]) = Datatypes.S (length (p ++ 46%Z :: ds))) by (rewrite !app_length; simpl; rewrite app_length; simpl; lia).
    rewrite L. cbn [carry_loop].
    assert (N : nth_error (p ++ 46%Z :: (ds ++ [d]) ++ nines) (length (p ++ 46%Z :: ds)) = Some d).
    { replace (p ++ 46%Z :: (ds ++ [d]) ++ nines) with ((p ++ 46%Z :: ds) ++ d :: nines) by (rewrite <- !app_assoc; reflexivity).
      rewrite nth_error_app2, Nat.sub_diag by lia. reflexivity. }
    rewrite (st_rd M tl _ b _ _ S N). cbn [bind]. unfold digit in Dd1.
    destruct (Z.eqb_spec d 57) as [->|N57].
    + assert (S' : st M tl (p ++ 46%Z :: ds ++ 57 :: nines) b) by (rewrite <- app_assoc in S; exact S).
      assert (El : len = length (p ++ 46%Z :: ds ++ 57 :: nines)) by (subst len; rewrite <- app_assoc; reflexivity). rewrite El.
      destruct (IH p (57 :: nines) S' D) as (b' & ds' & E' & St & Q). exists b', ds'. split; [exact E'|]. split; [exact St|].
      destruct Q as [((k & ->) & ->)|(e & x & k & -> & X & X57 & ->)].
      * left. split; [exists (k + 1)%nat; rewrite repeat_app; reflexivity|]. rewrite <- app_assoc. reflexivity.
      * right. exists e, x, (k + 1)%nat. rewrite repeat_app. rewrite <- app_assoc. cbn [app]. auto.
    + destruct (Z.eqb_spec d 46); [lia|].
      assert (S' : st M tl (p ++ 46 :: ds) b).
      { apply (st_cut M tl _ (d :: nines)). rewrite <- !app_assoc in S. rewrite <- app_assoc. exact S. }
      assert (K : (length (p ++ 46%Z :: ds) <= M)%nat).
      { pose proof (st_length _ _ _ _ S) as K. subst len. rewrite !app_length in *. simpl in *. rewrite !app_length in *. simpl in *. lia. }
      destruct (st_wr M tl _ b (d + 1) S' K) as (b' & E' & St'). rewrite E'. cbn [bind]. exists b', (ds ++ [d + 1]).
      split; [do 2 f_equal; rewrite !app_length; simpl; rewrite app_length; simpl; lia|].
      split; [rewrite <- app_assoc in St'; exact St'|]. right. exists ds, d, 0%nat. auto.
Qed.

Lemma dvalue_zeros k : dvalue (repeat 48 k) = 0.
Proof. induction k as [|k IH]; simpl; [reflexivity|]. rewrite IH. lia. Qed.

Lemma dvalue_nines k : dvalue (repeat 57 k) = 10 ^ Z.of_nat k - 1.
Proof.
  induction k as [|k IH]; simpl; [reflexivity|]. rewrite IH, repeat_length.
  replace (Z.of_nat (S k)) with (1 + Z.of_nat k) by lia. rewrite Z.pow_add_r, Z.pow_1_r by lia. lia.
Qed.

Lemma digits_repeat d k : digit d -> digits (repeat d k).
Proof. intros H. apply Forall_forall. intros x Hx. apply repeat_spec in Hx. now subst. Qed.

(** What [tidy] makes of the digits: the same number, or one more in the last place if
    they end in two nines. *)
Definition tidied (ds ds' : list Z) : Prop :=
  digits ds' /\ ds' <> [] /\ (length ds' <= length ds)%nat /\ no_trailing_zero ds' /\
  (dvalue ds' * 10 ^ Z.of_nat (length ds - length ds') = dvalue ds \/
   dvalue ds' * 10 ^ Z.of_nat (length ds - length ds') = dvalue ds + 1 /\ (2 <= length ds)%nat /\ dvalue ds mod 100 = 99).

Lemma mod_100 ds x y : dvalue (ds ++ [x; y]) mod 100 = (10 * (x - 48) + (y - 48)) mod 100.
Proof.
  rewrite dvalue_app. simpl. rewrite Z.pow_0_r. change (Z.of_nat 2) with 2. change (Z.of_nat 1) with 1. rewrite Z.pow_1_r. change (10 ^ 2) with 100.
  rewrite Z.add_comm, Z.mod_add by lia. f_equal. lia.
Qed.

Lemma tidy_ok M tl p ds b : st M tl (p ++ 46 :: ds) b -> digits ds -> ds <> [] -> (length (p ++ 46%Z :: ds) <= M)%nat ->
  exists ds' b', tidy b (length (p ++ 46%Z :: ds)) = Ret (b', length (p ++ 46%Z :: ds')) /\ st M tl (p ++ 46%Z :: ds') b' /\ tidied ds ds'.
Proof.
  intros S D N HM. destruct (exists_last N) as (e & d & ->). clear N.
  assert (A1 : p ++ 46%Z :: e ++ [d] = (p ++ 46%Z :: e) ++ [d]) by (rewrite <- app_assoc; reflexivity).
  assert (L1 : length (p ++ 46%Z :: e ++ [d]) = Datatypes.S (length (p ++ 46%Z :: e))) by (rewrite A1, (app_length (p ++ 46%Z :: e)); simpl; lia).
  unfold tidy. rewrite L1. unfold rd_back at 1. cbn [Nat.ltb Nat.leb]. replace (Datatypes.S (length (p ++ 46%Z :: e)) - 1)%nat with (length (p ++ 46%Z :: e)) by lia.
  rewrite (st_rd M tl _ b (length (p ++ 46%Z :: e)) d S).
  2: { rewrite A1. apply nth_last. }
  cbn [bind].
  assert (Zeros : exists ds' b', (let! len := zero_loop (Datatypes.S (length (p ++ 46%Z :: e))) b in
      let! x := rd_back b len 1 in
      if x =? 46 then let! b := wr b len 48 in Ret (b, Datatypes.S len) else Ret (b, len)) = Ret (b', length (p ++ 46%Z :: ds')) /\
      st M tl (p ++ 46%Z :: ds') b' /\ tidied (e ++ [d]) ds').
  { rewrite <- L1. destruct (zero_loop_ok M tl b (e ++ [d]) p S D) as (ds' & E & (k & K) & Q). rewrite E. cbn [bind].
    rewrite K in D. apply Forall_app in D. destruct D as [D' _].
    assert (S' : st M tl (p ++ 46%Z :: ds') b).
    { rewrite K in S. apply (st_cut M tl _ (repeat 48 k)). rewrite <- app_assoc. exact S. }
    destruct Q as [->|(e' & d' & -> & N)].
    - replace (length (p ++ [46%Z])) with (Datatypes.S (length p)) by (rewrite app_length; simpl; lia).
      unfold rd_back. cbn [Nat.ltb Nat.leb]. replace (Datatypes.S (length p) - 1)%nat with (length p) by lia.
      rewrite (st_rd M tl _ b _ 46 S' (nth_last p 46)). cbn [bind]. change (46 =? 46) with true. cbv iota.
      assert (K1 : (1 <= k)%nat) by (destruct k; [destruct e; discriminate|lia]).
      assert (HM' : (length (p ++ [46%Z]) <= M)%nat) by (rewrite !app_length in *; simpl in *; lia).
      destruct (st_wr M tl (p ++ [46]) b 48 S' HM') as (b' & E' & St').
      replace (Datatypes.S (length p)) with (length (p ++ [46%Z])) by (rewrite app_length; simpl; lia). rewrite E'. cbn [bind].
      exists [48], b'. split; [do 2 f_equal; rewrite !app_length; simpl; lia|]. split; [rewrite <- app_assoc in St'; exact St'|].
      rewrite K. simpl app. split; [repeat constructor; unfold digit; lia|]. split; [discriminate|]. rewrite repeat_length. split; [simpl; lia|].
      split; [now left|]. left. rewrite dvalue_zeros. reflexivity.
    - assert (A2 : p ++ 46%Z :: e' ++ [d'] = (p ++ 46%Z :: e') ++ [d']) by (rewrite <- app_assoc; reflexivity).
      assert (L2 : length (p ++ 46%Z :: e' ++ [d']) = Datatypes.S (length (p ++ 46%Z :: e'))) by (rewrite A2, (app_length (p ++ 46%Z :: e')); simpl; lia).
      rewrite L2. unfold rd_back. cbn [Nat.ltb Nat.leb]. replace (Datatypes.S (length (p ++ 46%Z :: e')) - 1)%nat with (length (p ++ 46%Z :: e')) by lia.
      rewrite (st_rd M tl _ b (length (p ++ 46%Z :: e')) d' S').
      2: { rewrite A2. apply nth_last. }
      cbn [bind]. apply Forall_app in D' as D''. destruct D'' as [_ Dd]. inversion Dd as [|? ? Dd1 _]; subst. unfold digit in Dd1.
      destruct (Z.eqb_spec d' 46); [lia|]. exists (e' ++ [d']), b. rewrite L2. split; [reflexivity|]. split; [exact S'|].
      split; [exact D'|]. split; [destruct e'; discriminate|]. rewrite K, (app_length (e' ++ [d'])). split; [lia|]. split; [right; eauto|]. left.
      rewrite (dvalue_app (e' ++ [d'])), dvalue_zeros, !repeat_length. replace (length (e' ++ [d']) + k - length (e' ++ [d']))%nat with k by lia. lia. }
  destruct (Z.eqb_spec d 57) as [->|Nd]; [|exact Zeros].
  unfold rd_back at 1. destruct (Nat.ltb_spec (Datatypes.S (length (p ++ 46%Z :: e))) 2) as [Hb|_].
  { rewrite app_length in Hb. cbn [length] in Hb. lia. }
  destruct e as [|x e _] using rev_ind.
  - (* a single nine *)
    replace (Datatypes.S (length (p ++ [46%Z])) - 2)%nat with (length p) by (rewrite app_length; simpl; lia).
    assert (N : nth_error (p ++ 46 :: [] ++ [57]) (length p) = Some 46) by (rewrite nth_error_app2, Nat.sub_diag by lia; reflexivity).
    rewrite (st_rd M tl _ b _ _ S N). cbn [bind]. change (46 =? 57) with false. cbv iota. exact Zeros.
  - assert (A2 : p ++ 46 :: e ++ [x] = (p ++ 46 :: e) ++ [x]) by (rewrite <- app_assoc; reflexivity).
    assert (L2 : length (p ++ 46 :: e ++ [x]) = Datatypes.S (length (p ++ 46%Z :: e))) by (rewrite A2, (app_length (p ++ 46%Z :: e)); simpl; lia).
    replace (Datatypes.S (length (p ++ 46%Z :: e ++ [x])) - 2)%nat with (length (p ++ 46%Z :: e)) by lia.
    assert (N : nth_error (p ++ 46%Z :: (e ++ [x]) ++ [57]) (length (p ++ 46%Z :: e)) = Some x).
    { replace (p ++ 46%Z :: (e ++ [x]) ++ [57]) with ((p ++ 46%Z :: e) ++ x :: [57]) by (rewrite <- !app_assoc; reflexivity).
      rewrite nth_error_app2, Nat.sub_diag by lia. reflexivity. }
    rewrite (st_rd M tl _ b _ _ S N). cbn [bind].
    destruct (Z.eqb_spec x 57) as [->|Nx]; [|exact Zeros]. clear Zeros.
    destruct (Nat.leb_spec (length (p ++ 46%Z :: e ++ [57%Z])) 0) as [Hb|_]; [rewrite L2 in Hb; lia|].
    replace (Datatypes.S (length (p ++ 46%Z :: e ++ [57%Z])) - 2)%nat with (length (p ++ 46%Z :: e)) by lia.
    rewrite <- L1. rewrite <- app_assoc in S, D |- *. cbn [app] in S, D |- *.
    pose proof D as D0. apply Forall_app in D0. destruct D0 as [De _].
    destruct (carry_loop_ok M tl b e p [57; 57] S De) as (b' & ds' & E & St & Q). cbv zeta in E. exists ds', b'.
    split; [exact E|]. split; [exact St|].
    destruct Q as [((k & ->) & ->)|(f & y & k & -> & Y & Y57 & ->)].
    + split; [exact D|]. split; [destruct k; discriminate|]. split; [lia|].
      split; [right; exists (repeat 57 k ++ [57]), 57; rewrite <- app_assoc; split; [reflexivity|lia]|]. left. rewrite Nat.sub_diag, Z.pow_0_r. lia.
    + apply Forall_app in De. destruct De as [Df _]. unfold digit in Y.
      split; [apply digits_snoc; [exact Df|unfold digit; lia]|]. split; [destruct f; discriminate|].
      split; [rewrite !app_length; simpl; lia|]. split; [right; exists f, (y + 1); split; [reflexivity|lia]|]. right.
      split; [|split; [rewrite !app_length; simpl; lia|rewrite mod_100; reflexivity]].
      replace ((f ++ y :: repeat 57 k) ++ [57; 57]) with ((f ++ [y]) ++ repeat 57 (k + 2)) by (rewrite repeat_app, <- !app_assoc; reflexivity).
      rewrite (dvalue_app (f ++ [y])), dvalue_nines, !dvalue_snoc, repeat_length.
      replace (length ((f ++ [y]) ++ repeat 57%Z (k + 2)) - length (f ++ [(y + 1)%Z]))%nat with (k + 2)%nat by (rewrite !app_length, repeat_length; simpl; lia). lia.
Qed.
