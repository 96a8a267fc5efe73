(** * The operations of MathModel.v, computed with shifts instead of divisions.

    The checks over all binades and powers of ten in MathLog.v, MathScale.v and PropMath.v
    are computed with these functions, which keeps them short for a checker without the
    virtual machine. Every function here is proved equal to the one it stands for. *)

From Verif Require Import Base TextModel NumModel StringModel SpecText FloatTextModel SpecFloatText MathModel RoundProofs StrtodProofs FloatTextProofs FloatResult.
From Verif Require Import MathRound.

#[local] Arguments Z.pow : simpl never.

(** [div_half_even a (2 ^ t)] *)
Definition half2 (a t : Z) : Z :=
  let q := Z.shiftr a t in
  match 2 * (a - Z.shiftl q t) ?= Z.shiftl 1 t with
  | Lt => q
  | Gt => q + 1
  | Eq => if Z.even q then q else q + 1
  end.

Lemma half2_eq a t : 0 <= t -> half2 a t = div_half_even a (2 ^ t).
Proof.
  intros H. unfold half2, div_half_even. cbv zeta. rewrite !Z.shiftl_mul_pow2, Z.shiftr_div_pow2, Z.mul_1_l by exact H.
  rewrite Z.mod_eq by (pose proof (pow2_pos t H); lia). now rewrite (Z.mul_comm (a / 2 ^ t)).
Qed.

(** [fround n (2 ^ k)] *)
Definition round2 (a k : Z) : Z := let s := Z.max 0 (Z.log2 (Z.shiftr a k) - 23) in Z.shiftl (half2 a (k + s)) s.
Definition fround2 (n k : Z) : f32 := let m := round2 (Z.abs n) k in if 2 ^ 277 <=? m then Inf (n <? 0) else Fin (Z.sgn n * m).

Lemma fround2_eq n k : 0 <= k -> fround2 n k = fround n (2 ^ k).
Proof.
  intros H. unfold fround2, fround, round2, round_units. cbv zeta. rewrite Z.shiftr_div_pow2 by exact H.
  set (s := Z.max 0 (Z.log2 (Z.abs n / 2 ^ k) - 23)). assert (S : 0 <= s) by apply Z.le_max_l. clearbody s.
  rewrite half2_eq, Z.shiftl_mul_pow2, Z.pow_add_r by (clear - S H; lia). reflexivity.
Qed.

Definition fadd2 (x y : f32) : f32 := match x, y with Fin a, Fin b => fround2 (a + b) 0 | _, _ => fadd x y end.
Definition fmul2 (x y : f32) : f32 := match x, y with Fin a, Fin b => fround2 (a * b) 149 | _, _ => fmul x y end.
Definition of_int2 (n : Z) : f32 := fround2 (n * 2 ^ 149) 0.
Definition horner2 (x r c : f32) : f32 := fadd2 (fmul2 r x) c.

Lemma fadd2_eq x y : fadd2 x y = fadd x y.
Proof. destruct x, y; try reflexivity. cbn [fadd2 fadd]. now rewrite fround2_eq. Qed.
Lemma fmul2_eq x y : fmul2 x y = fmul x y.
Proof. destruct x, y; try reflexivity. cbn [fmul2 fmul]. now rewrite fround2_eq. Qed.
Lemma of_int2_eq n : of_int2 n = of_int n.
Proof. unfold of_int2, of_int. now rewrite fround2_eq. Qed.
Lemma horner2_eq x r c : horner2 x r c = horner x r c.
Proof. unfold horner2, horner. now rewrite fadd2_eq, fmul2_eq. Qed.

(** A common factor of the two numbers. *)
Lemma fround_cancel n d c : 0 < d -> 0 < c -> fround (n * c) (d * c) = fround n d.
Proof.
  intros D C. unfold fround, round_units. cbv zeta. rewrite Z.abs_mul, (Z.abs_eq c), Z.div_mul_cancel_r by lia.
  set (k := Z.max 0 (Z.log2 (Z.abs n / d) - 23)). assert (K : 0 < 2 ^ k) by (apply pow2_pos; unfold k; lia).
  replace (d * c * 2 ^ k) with (d * 2 ^ k * c) by ring. set (e := d * 2 ^ k). assert (0 < e) by (unfold e; nia).
  assert (E : div_half_even (Z.abs n * c) (e * c) = div_half_even (Z.abs n) e).
  { unfold div_half_even. cbv zeta. rewrite Z.div_mul_cancel_r, Z.mul_mod_distr_r by lia.
    rewrite Z.mul_assoc, <- (Zmult_compare_compat_r _ _ c) by lia. reflexivity. }
  rewrite E. replace (n * c <? 0) with (n <? 0) by (destruct (Z.ltb_spec n 0), (Z.ltb_spec (n * c) 0); nia).
  rewrite Z.sgn_mul, (Z.sgn_pos c), Z.mul_1_r by lia. reflexivity.
Qed.

(** The largest whole number of 2^149 units. *)
Definition down2 (a : Z) : Z := Z.shiftl (Z.shiftr a 149) 149.
Lemma down2_eq a : down2 a = a / 2 ^ 149 * 2 ^ 149.
Proof. unfold down2. now rewrite Z.shiftl_mul_pow2, Z.shiftr_div_pow2. Qed.
