(** * The floats as numbers, and the order of the results of Exp. *)

From Verif Require Import Base TextModel NumModel StringModel SpecText FloatTextModel SpecFloatText SpecMath MathModel RoundProofs StrtodProofs FloatTextProofs FloatResult.
From Verif Require Import MathRound MathFast MathFloor MathLog.

#[local] Arguments Z.pow : simpl never.

(** ** Numbers *)

Lemma of_bits_value bits : f_finite bits -> of_bits bits = Fin (f_value bits).
Proof.
  intros [B N]. unfold of_bits, f_value, f_sign. rewrite units_spec, field_e. fold (f_exponent bits). cbv zeta.
  destruct (Z.eqb_spec (f_exponent bits) 0xFF) as [Q|_]; [elim (N Q)|]. reflexivity.
Qed.

Lemma units_rep bits : rep (f_units bits) /\ 0 <= f_units bits.
Proof.
  destruct (f_bounds bits) as [Be Bm]. unfold f_units. destruct (Z.eqb_spec (f_exponent bits) 0).
  - split; [|lia]. exists (f_mantissa bits), 0. change (2 ^ 0) with 1. lia.
  - split; [|pose proof (pow2_pos (f_exponent bits - 1) ltac:(lia)); nia].
    exists (2 ^ 23 + f_mantissa bits), (f_exponent bits - 1). lia.
Qed.

Lemma value_rep bits : rep (Z.abs (f_value bits)).
Proof. destruct (units_rep bits) as [R P]. unfold f_value. destruct (f_sign bits); rewrite ?Z.abs_opp, Z.abs_eq by lia; exact R. Qed.

Lemma rep_below a p : 0 <= p -> rep a -> a < 2 ^ (24 + p) -> a <= (2 ^ 24 - 1) * 2 ^ p.
Proof.
  intros Hp (q & k & Hk & Hq & ->) H. pose proof (pow2_pos p Hp) as P. destruct (Z.le_gt_cases k p) as [L|L].
  - destruct (Z.eq_dec q (2 ^ 24)) as [->|N].
    + destruct (Z.eq_dec k p) as [->|M]; [rewrite Z.pow_add_r in H by lia; lia|].
      transitivity (2 ^ 23 * 2 ^ p); [|nia]. rewrite <- !Z.pow_add_r by lia. apply Z.pow_le_mono_r; lia.
    + pose proof (pow2_pos k Hk). pose proof (Z.pow_le_mono_r 2 k p ltac:(lia) L). nia.
  - rewrite Z.pow_add_r in H by lia. replace k with (k - p + p) in * by lia. rewrite Z.pow_add_r in * by lia.
    pose proof (pow2_pos (k - p) ltac:(lia)). rewrite Z.mul_assoc in *. apply Z.mul_lt_mono_pos_r in H; [|exact P].
    apply Z.mul_le_mono_nonneg_r; lia.
Qed.

(** ** Order, with infinity *)

Definition oleb (x y : f32) : bool :=
  match x, y with
  | Fin a, Fin b => (0 <=? a) && (a <=? b)
  | Fin a, Inf false => 0 <=? a
  | Inf false, Inf false => true
  | _, _ => false
  end.

Lemma oleb_ole x y : oleb x y = true -> ole x y.
Proof. destruct x as [a|[]|], y as [b|[]|]; simpl; try discriminate; auto; intros H; lia. Qed.

Lemma ole_trans x y z : ole x y -> ole y z -> ole x z.
Proof. destruct x as [a|[]|], y as [b|[]|], z as [c|[]|]; simpl; try tauto; lia. Qed.

Lemma fround_ole n1 d1 n2 d2 : 0 <= n1 -> 0 < d1 -> 0 < d2 -> n1 * d2 <= n2 * d1 -> ole (fround n1 d1) (fround n2 d2).
Proof.
  intros H1 D1 D2 H. assert (H2 : 0 <= n2) by nia. unfold fround. rewrite !Z.abs_eq by lia. cbv zeta.
  pose proof (round_mono n1 d1 n2 d2 H1 D1 D2 H) as M. pose proof (round_nonneg n1 d1 H1 D1) as R1. pose proof (round_nonneg n2 d2 H2 D2) as R2.
  assert (S1 : Z.sgn n1 * round_units n1 d1 = round_units n1 d1).
  { destruct (Z.eq_dec n1 0) as [->|]; [rewrite round_zero by lia; reflexivity|rewrite Z.sgn_pos by lia; lia]. }
  assert (S2 : Z.sgn n2 * round_units n2 d2 = round_units n2 d2).
  { destruct (Z.eq_dec n2 0) as [->|]; [rewrite round_zero by lia; reflexivity|rewrite Z.sgn_pos by lia; lia]. }
  rewrite S1, S2. destruct (Z.ltb_spec n1 0); [lia|]. destruct (Z.ltb_spec n2 0); [lia|].
  destruct (Z.leb_spec (2 ^ 277) (round_units n1 d1)), (Z.leb_spec (2 ^ 277) (round_units n2 d2)); simpl; lia.
Qed.

(** ** The polynomial *)

Definition c9 := Eval vm_compute in ratio 1 362880.
Definition c8 := Eval vm_compute in ratio 1 40320.
Definition c7 := Eval vm_compute in ratio 1 5040.
Definition c6 := Eval vm_compute in ratio 1 720.
Definition c5 := Eval vm_compute in ratio 1 120.
Definition c4 := Eval vm_compute in ratio 1 24.
Definition c3 := Eval vm_compute in ratio 1 6.
Definition c2 := Eval vm_compute in literal 5 1.
Definition c1 := Eval vm_compute in of_int 1.

Definition poly (x : f32) : f32 :=
  fadd (fmul (horner x (horner x (horner x (horner x (horner x (horner x (horner x c9 c8) c7) c6) c5) c4) c3) c2) (fmul x x)) (fadd x c1).

Lemma poly_eq x : exp_fraction x = poly x.
Proof.
  assert (E : ratio 1 362880 = c9 /\ ratio 1 40320 = c8 /\ ratio 1 5040 = c7 /\ ratio 1 720 = c6 /\ ratio 1 120 = c5 /\ ratio 1 24 = c4 /\
    ratio 1 6 = c3 /\ literal 5 1 = c2 /\ of_int 1 = c1) by (repeat split; vm_compute; reflexivity).
  destruct E as (E9 & E8 & E7 & E6 & E5 & E4 & E3 & E2 & E1). unfold exp_fraction, poly. cbv zeta.
  now rewrite E9, E8, E7, E6, E5, E4, E3, E2, E1.
Qed.

(** With the functions of MathFast.v. *)
Definition poly2 (x : f32) : f32 :=
  fadd2 (fmul2 (horner2 x (horner2 x (horner2 x (horner2 x (horner2 x (horner2 x (horner2 x c9 c8) c7) c6) c5) c4) c3) c2) (fmul2 x x)) (fadd2 x c1).
Lemma poly2_eq x : poly2 x = poly x.
Proof. unfold poly2, poly. now rewrite !horner2_eq, !fmul2_eq, !fadd2_eq. Qed.

Lemma poly_nle x x' : nle 149 x x' -> nle 160 (poly x) (poly x').
Proof.
  intros H. unfold poly.
  assert (H8 : nle 150 (horner x c9 c8) (horner x' c9 c8)) by (apply (horner_nle 149 149); [lia|lia|lia|const|assumption|const]).
  set (r8 := horner x c9 c8) in *. set (r8' := horner x' c9 c8) in *.
  assert (H7 : nle 151 (horner x r8 c7) (horner x' r8' c7)) by (apply (horner_nle 150 149); [lia|lia|lia|assumption|assumption|const]).
  set (r7 := horner x r8 c7) in *. set (r7' := horner x' r8' c7) in *.
  assert (H6 : nle 152 (horner x r7 c6) (horner x' r7' c6)) by (apply (horner_nle 151 149); [lia|lia|lia|assumption|assumption|const]).
  set (r6 := horner x r7 c6) in *. set (r6' := horner x' r7' c6) in *.
  assert (H5 : nle 153 (horner x r6 c5) (horner x' r6' c5)) by (apply (horner_nle 152 149); [lia|lia|lia|assumption|assumption|const]).
  set (r5 := horner x r6 c5) in *. set (r5' := horner x' r6' c5) in *.
  assert (H4 : nle 154 (horner x r5 c4) (horner x' r5' c4)) by (apply (horner_nle 153 149); [lia|lia|lia|assumption|assumption|const]).
  set (r4 := horner x r5 c4) in *. set (r4' := horner x' r5' c4) in *.
  assert (H3 : nle 155 (horner x r4 c3) (horner x' r4' c3)) by (apply (horner_nle 154 149); [lia|lia|lia|assumption|assumption|const]).
  set (r3 := horner x r4 c3) in *. set (r3' := horner x' r4' c3) in *.
  assert (H2 : nle 156 (horner x r3 c2) (horner x' r3' c2)) by (apply (horner_nle 155 149); [lia|lia|lia|assumption|assumption|const]).
  set (r2 := horner x r3 c2) in *. set (r2' := horner x' r3' c2) in *.
  assert (Hx : nle 149 (fmul x x) (fmul x' x')) by (apply (fmul_nle 149 149); [lia|lia|lia|assumption..]).
  assert (Hm : nle 156 (fmul r2 (fmul x x)) (fmul r2' (fmul x' x'))) by (apply (fmul_nle 156 149); [lia|lia|lia|assumption..]).
  assert (Ha : nle 150 (fadd x c1) (fadd x' c1)) by (apply (fadd_nle 149 149); [lia|lia|lia|assumption|const]).
  apply (nle_weak 157); [lia|]. apply (fadd_nle 156 150); [lia|lia|lia|assumption..].
Qed.

(** At the ends of the interval. *)
Definition poly_1 : Z := Eval vm_compute in match poly (Fin (2 ^ 149)) with Fin a => a | _ => 0 end.

Lemma poly_ends : poly (Fin 0) = Fin (2 ^ 149) /\ poly (Fin (2 ^ 149)) = Fin poly_1.
Proof. rewrite <- !poly2_eq. split; vm_compute; reflexivity. Qed.

Lemma poly_range a : 0 <= a <= 2 ^ 149 -> exists f, poly (Fin a) = Fin f /\ 2 ^ 149 <= f <= poly_1.
Proof.
  intros H. destruct poly_ends as [E0 E1].
  destruct (poly_nle (Fin 0) (Fin a)) as (x & y & Ex & Ey & R); [exists 0, a; repeat split; lia|].
  destruct (poly_nle (Fin a) (Fin (2 ^ 149))) as (x' & y' & Ex' & Ey' & R'); [exists a, (2 ^ 149); repeat split; lia|].
  rewrite E0 in Ex. injection Ex as <-. rewrite E1 in Ey'. injection Ey' as <-. exists y. split; [exact Ey|]. rewrite Ey in Ex'. injection Ex' as <-. lia.
Qed.

#[local] Opaque poly.

(** ** The table *)

Definition entry (i : Z) : f32 := of_bits (nth (Z.to_nat i) exp_table 0).

Definition check_entry (i : Z) : bool :=
  oleb (fmul (Fin poly_1) (entry i)) (entry (i + 1)) && oleb (entry i) (entry (i + 1)) &&
  match entry i with Fin t => (0 <? t) && (match fmul (Fin (2 ^ 149)) (Fin t) with Fin t' => t =? t' | _ => false end) | _ => false end.

Lemma entries : forallb (fun n => check_entry (Z.of_nat n)) (seq 1 176) = true.
Proof. vm_compute. reflexivity. Qed.

#[local] Opaque check_entry.

Lemma entry_ok i : 1 <= i <= 176 -> check_entry i = true.
Proof.
  intros H. assert (I : In (Z.to_nat i) (seq 1 176)) by (clear - H; apply in_seq; lia).
  pose proof (proj1 (forallb_forall _ _) entries _ I) as C. cbv beta in C. now rewrite Z2Nat.id in C by (clear C; lia).
Qed.

#[local] Transparent check_entry.

Lemma entry_spec i : 1 <= i <= 176 -> ole (fmul (Fin poly_1) (entry i)) (entry (i + 1)) /\ ole (entry i) (entry (i + 1)) /\
  exists t, entry i = Fin t /\ 0 < t /\ fmul (Fin (2 ^ 149)) (Fin t) = Fin t.
Proof.
  intros H. pose proof (entry_ok i H) as C. unfold check_entry in C. apply andb_true_iff in C. destruct C as [C C3].
  apply andb_true_iff in C. destruct C as [C1 C2]. split; [now apply oleb_ole|]. split; [now apply oleb_ole|].
  destruct (entry i) as [t| |]; [|discriminate C3..]. apply andb_true_iff in C3. destruct C3 as [C3 C4]. exists t. split; [reflexivity|].
  split; [lia|]. destruct (fmul (Fin (2 ^ 149)) (Fin t)) as [t'| |]; [|discriminate C4..]. f_equal. lia.
Qed.

Lemma entry_177 : entry 177 = Inf false.
Proof. vm_compute. reflexivity. Qed.
Lemma entry_179 : entry 178 = Fin 0 /\ entry 179 = Fin 0.
Proof. split; vm_compute; reflexivity. Qed.

(** The values for the integer [k] + 88 = [i] and the fraction [a]. *)
Definition exp_at (i a : Z) : f32 := fmul (poly (Fin a)) (entry i).

Lemma poly_mono a b : 0 <= a -> a <= b -> b <= 2 ^ 149 ->
  exists f g, poly (Fin a) = Fin f /\ poly (Fin b) = Fin g /\ 2 ^ 149 <= f /\ f <= g /\ g <= poly_1.
Proof.
  intros Ha H Hb. destruct (poly_range a ltac:(lia)) as (f & Ef & Ff). destruct (poly_range b ltac:(lia)) as (g & Eg & Fg).
  destruct (poly_nle (Fin a) (Fin b)) as (x & y & Ex & Ey & R); [exists a, b; repeat split; lia|].
  rewrite Ef in Ex. injection Ex as <-. rewrite Eg in Ey. injection Ey as <-. exists f, g. repeat split; try assumption; lia.
Qed.

Lemma exp_at_mono i a b : 1 <= i <= 177 -> 0 <= a -> a <= b -> b <= 2 ^ 149 -> ole (exp_at i a) (exp_at i b).
Proof.
  intros Hi Ha H Hb. destruct (poly_mono a b Ha H Hb) as (f & g & Ef & Eg & F1 & F2 & _). unfold exp_at. rewrite Ef, Eg.
  assert (0 < 2 ^ 149) by lia.
  destruct (Z.eq_dec i 177) as [->|N].
  - rewrite entry_177. cbn [fmul]. destruct (Z.eqb_spec f 0); [lia|]. destruct (Z.eqb_spec g 0); [lia|].
    destruct (Z.ltb_spec f 0); [lia|]. destruct (Z.ltb_spec g 0); [lia|]. exact I.
  - destruct (entry_spec i ltac:(lia)) as (_ & _ & t & -> & T & _). cbn [fmul]. apply fround_ole; [|lia|lia|].
    + apply Z.mul_nonneg_nonneg; lia.
    + apply Z.mul_le_mono_nonneg_r; [lia|]. apply Z.mul_le_mono_nonneg_r; lia.
Qed.

(** The last value for [i] and the first for the next integer. *)
Lemma exp_at_next i a : 1 <= i <= 176 -> 0 <= a <= 2 ^ 149 -> ole (exp_at i a) (entry (i + 1)).
Proof.
  intros Hi Ha. destruct (entry_spec i Hi) as (C & _). eapply ole_trans; [|exact C].
  assert (E : exp_at i (2 ^ 149) = fmul (Fin poly_1) (entry i)) by (unfold exp_at; rewrite (proj2 poly_ends); reflexivity).
  rewrite <- E. apply exp_at_mono; lia.
Qed.

Lemma exp_at_first i b : 1 <= i <= 177 -> 0 <= b <= 2 ^ 149 -> ole (entry i) (exp_at i b).
Proof.
  intros Hi Hb. assert (E : exp_at i 0 = entry i).
  { unfold exp_at. rewrite (proj1 poly_ends). destruct (Z.eq_dec i 177) as [->|N]; [rewrite entry_177; reflexivity|].
    destruct (entry_spec i ltac:(lia)) as (_ & _ & t & -> & _ & M). exact M. }
  rewrite <- E. apply exp_at_mono; lia.
Qed.

Lemma entry_mono n : forall i, 1 <= i -> i + Z.of_nat n <= 177 -> ole (entry i) (entry (i + Z.of_nat n)).
Proof.
  induction n as [|n IH]; intros i Hi H.
  - rewrite Z.add_0_r. eapply ole_trans; [apply (exp_at_first i 0); lia|].
    unfold exp_at. rewrite (proj1 poly_ends). destruct (Z.eq_dec i 177) as [->|N]; [rewrite entry_177; exact I|].
    destruct (entry_spec i ltac:(lia)) as (_ & _ & t & -> & T & M). rewrite M. simpl. lia.
  - rewrite Nat2Z.inj_succ in *. destruct (entry_spec i ltac:(lia)) as (_ & C & _). eapply ole_trans; [exact C|].
    replace (i + Z.succ (Z.of_nat n)) with (i + 1 + Z.of_nat n) by lia. apply IH; lia.
Qed.

Lemma exp_at_order i j a b : 1 <= i -> i <= j -> j <= 177 -> 0 <= a <= 2 ^ 149 -> 0 <= b <= 2 ^ 149 -> (i = j -> a <= b) -> ole (exp_at i a) (exp_at j b).
Proof.
  intros Hi H Hj Ha Hb Hab. destruct (Z.eq_dec i j) as [->|N]; [apply exp_at_mono; lia|].
  eapply ole_trans; [apply exp_at_next; lia|]. eapply ole_trans; [|apply exp_at_first; lia].
  replace j with (i + 1 + Z.of_nat (Z.to_nat (j - i - 1))) by lia. apply entry_mono; lia.
Qed.

(** ** Exp *)

(** The fraction of the number [a]. *)
Definition fraction_of (a : Z) : Z := rnd (a mod 2 ^ 149) 1.

Lemma fraction_range a : 0 <= fraction_of a <= 2 ^ 149.
Proof.
  pose proof (Z.mod_pos_bound a (2 ^ 149) ltac:(lia)). unfold fraction_of. split.
  - rewrite rnd_nonneg by lia. apply round_nonneg; lia.
  - apply (rnd_range _ 1 149); lia.
Qed.

Lemma fraction_mono a b : a / 2 ^ 149 = b / 2 ^ 149 -> a <= b -> fraction_of a <= fraction_of b.
Proof.
  intros E H. unfold fraction_of. apply rnd_mono; [lia|lia|].
  pose proof (Z.div_mod a (2 ^ 149) ltac:(lia)). pose proof (Z.div_mod b (2 ^ 149) ltac:(lia)). lia.
Qed.

Lemma exp_value v a : rep (Z.abs a) -> exp_f v (Fin a) =
  if (- 2 ^ 31 * 2 ^ 149 <=? a) && (a <? 2 ^ 31 * 2 ^ 149)
  then Ret (let i := a / 2 ^ 149 + 88 in if 0 <? i then exp_at (Z.min i 179) (fraction_of a) else Fin 0) else UB.
Proof.
  intros R. unfold exp_f. rewrite (floor_fin v a R). set (k := a / 2 ^ 149).
  pose proof (Z.div_mod a (2 ^ 149) ltac:(lia)) as D. fold k in D. pose proof (Z.mod_pos_bound a (2 ^ 149) ltac:(lia)) as M.
  unfold to_int32. rewrite Z.quot_mul by lia. cbv zeta.
  assert (K1 : (- 2 ^ 31 <=? k) = (- 2 ^ 31 * 2 ^ 149 <=? a)).
  { destruct (Z.leb_spec (- 2 ^ 31) k), (Z.leb_spec (- 2 ^ 31 * 2 ^ 149) a); auto; exfalso; lia. }
  assert (K2 : (k <? 2 ^ 31) = (a <? 2 ^ 31 * 2 ^ 149)).
  { destruct (Z.ltb_spec k (2 ^ 31)), (Z.ltb_spec a (2 ^ 31 * 2 ^ 149)); auto; exfalso; lia. }
  rewrite K1, K2. destruct (Z.leb_spec (- 2 ^ 31 * 2 ^ 149) a) as [L|]; [|reflexivity]. destruct (Z.ltb_spec a (2 ^ 31 * 2 ^ 149)) as [U|]; [|reflexivity].
  cbn [andb bind]. clear K1 K2.
  destruct (Z.leb_spec (2 ^ 31) (k + 88)) as [B|B].
  { exfalso. assert (0 <= a) by nia. rewrite Z.abs_eq in R by lia. pose proof (rep_below a 156 ltac:(lia) R ltac:(lia)). lia. }
  destruct (Z.ltb_spec 0 (k + 88)) as [P|P]; [|reflexivity].
  assert (F : fsub (Fin a) (Fin (k * 2 ^ 149)) = Fin (fraction_of a)).
  { rewrite (fsub_fin _ _ 149) by lia. unfold fraction_of. do 2 f_equal. lia. }
  rewrite F, poly_eq. unfold exp_at, entry.
  assert (I : (if k + 88 <? 179 then k + 88 else 179) = Z.min (k + 88) 179) by (destruct (Z.ltb_spec (k + 88) 179); lia). rewrite I.
  set (i := Z.min (k + 88) 179).
  assert (Li : (Z.to_nat i < length exp_table)%nat) by (change (length exp_table) with 180%nat; lia).
  rewrite (nth_error_nth' exp_table 0 Li). reflexivity.
Qed.
