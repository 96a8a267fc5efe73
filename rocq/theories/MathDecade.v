(** * The power of ten FloatToString takes, for all numbers. *)

From Verif Require Import Base TextModel NumModel StringModel SpecText FloatTextModel SpecFloatText SpecMath MathModel RoundProofs StrtodProofs FloatTextProofs FloatResult.
From Verif Require Import MathRound MathFloor MathLog.

#[local] Arguments Z.pow : simpl never.
#[local] Opaque check_binade.

Lemma check_binade_ok E : 1 <= E < 255 -> check_binade E = true.
Proof.
  intros H. assert (I : In (Z.to_nat E) (seq 1 254)) by (clear - H; apply in_seq; lia).
  pose proof (proj1 (forallb_forall _ _) check_all_ok _ I) as C. cbv beta in C. rewrite Z2Nat.id in C by (clear C; lia). exact C.
Qed.

Lemma above_mono D u u' : u <= u' -> above D u = true -> above D u' = true.
Proof.
  intros H. unfold above, tens. rewrite !Z.leb_le. intros A. etransitivity; [exact A|].
  assert (0 < 10 ^ Z.max 0 (- D)) by (apply Z.pow_pos_nonneg; lia).
  apply Z.mul_le_mono_nonneg_r; [lia|]. apply Z.mul_le_mono_nonneg_r; lia.
Qed.
Lemma below_mono D u u' : u' <= u -> below D u = true -> below D u' = true.
Proof.
  intros H. unfold below, tens. rewrite !Z.leb_le. intros A. etransitivity; [|exact A].
  assert (0 < 10 ^ Z.max 0 (- D)) by (apply Z.pow_pos_nonneg; lia).
  apply Z.mul_le_mono_nonneg_r; [lia|]. apply Z.mul_le_mono_nonneg_r; lia.
Qed.

(** A monotone function on a binade, with one step or none. *)
Lemma binade_step (W : Z -> Z) (step : option (Z * Z)) (E j : Z) :
  0 <= j < 2 ^ 23 -> 0 < 2 ^ (E - 1) -> (forall x y, 0 <= x -> x <= y -> y < 2 ^ 23 -> W x <= W y) ->
  above (W 0) (2 ^ 23 * 2 ^ (E - 1)) = true -> below (W (2 ^ 23 - 1)) ((2 ^ 24 - 1) * 2 ^ (E - 1)) = true ->
  match step with
  | None => W 0 = W (2 ^ 23 - 1)
  | Some (s, D) => D = W (2 ^ 23 - 1) /\ W 0 = D - 1 /\ 0 < s < 2 ^ 23 /\ W s = D /\ W (s - 1) = D - 1 /\
      above D ((2 ^ 23 + s) * 2 ^ (E - 1)) = true /\ below (D - 1) ((2 ^ 23 + s - 1) * 2 ^ (E - 1)) = true
  end ->
  above (W j) ((2 ^ 23 + j) * 2 ^ (E - 1)) = true /\ below (W j) ((2 ^ 23 + j) * 2 ^ (E - 1)) = true /\
  match step with None => W j = W 0 | Some (s, D) => W j = if j <? s then D - 1 else D end.
Proof.
  intros Hj PE M Ca Cb S. pose proof (M 0 j ltac:(lia) ltac:(lia) ltac:(lia)) as M0. pose proof (M j (2 ^ 23 - 1) ltac:(lia) ltac:(lia) ltac:(lia)) as M1.
  destruct step as [[s D]|].
  - destruct S as (S1 & S2 & S3 & S4 & S5 & S6 & S7). destruct (Z.ltb_spec j s) as [L|L].
    + pose proof (M j (s - 1) ltac:(lia) ltac:(lia) ltac:(lia)) as M2.
      assert (Ej : W j = D - 1) by lia. rewrite Ej. rewrite S2 in Ca. split; [|split; [|reflexivity]].
      * eapply above_mono; [|exact Ca]. apply Z.mul_le_mono_nonneg_r; lia.
      * eapply below_mono; [|exact S7]. apply Z.mul_le_mono_nonneg_r; lia.
    + pose proof (M s j ltac:(lia) ltac:(lia) ltac:(lia)) as M2.
      assert (Ej : W j = D) by lia. rewrite Ej. rewrite <- S1 in Cb. split; [|split; [|reflexivity]].
      * eapply above_mono; [|exact S6]. apply Z.mul_le_mono_nonneg_r; lia.
      * eapply below_mono; [|exact Cb]. apply Z.mul_le_mono_nonneg_r; lia.
  - assert (Ej : W j = W 0) by lia. rewrite Ej. rewrite <- S in Cb. split; [|split; [|reflexivity]].
    + eapply above_mono; [|exact Ca]. apply Z.mul_le_mono_nonneg_r; lia.
    + eapply below_mono; [|exact Cb]. apply Z.mul_le_mono_nonneg_r; lia.
Qed.

(** What the check says. *)
Lemma check_binade_spec E : 1 <= E < 255 -> let W := fun x => whole (pos (E - 127) x) in
  above (W 0) (2 ^ 23 * 2 ^ (E - 1)) = true /\ below (W (2 ^ 23 - 1)) ((2 ^ 24 - 1) * 2 ^ (E - 1)) = true /\
  -38 <= W 0 /\ W (2 ^ 23 - 1) <= 38 /\ (E < 4 -> W (2 ^ 23 - 1) = -38) /\ (4 < E -> -37 <= W 0) /\
  match step_of E with
  | None => W 0 = W (2 ^ 23 - 1)
  | Some (s, D) => D = W (2 ^ 23 - 1) /\ W 0 = D - 1 /\ 0 < s < 2 ^ 23 /\ W s = D /\ W (s - 1) = D - 1 /\
      above D ((2 ^ 23 + s) * 2 ^ (E - 1)) = true /\ below (D - 1) ((2 ^ 23 + s - 1) * 2 ^ (E - 1)) = true
  end.
Proof.
  intros H W. pose proof (check_binade_ok E H) as C. Transparent check_binade. unfold check_binade in C. rewrite <- ends_first, <- ends_last in C.
  assert (HW : forall x, whole (pos (E - 127) x) = W x) by reflexivity. cbv zeta in C. rewrite !HW in C.
  destruct (step_of E) as [[s D]|]; rewrite ?HW in C; clear HW; clearbody W.
  - rewrite !andb_true_iff, !orb_true_iff, !Z.leb_le, !Z.eqb_eq, !Z.ltb_lt in C. intuition lia.
  - rewrite !andb_true_iff, !orb_true_iff, !Z.leb_le, !Z.eqb_eq in C. intuition lia.
Qed.

Lemma step_4 : step_of 4 = Some (531657, -37).
Proof. vm_compute. reflexivity. Qed.

(** For every positive normal number the power is right up to a relative error of 2^-16. *)
Lemma decade_fields v E j : 1 <= E < 255 -> 0 <= j < 2 ^ 23 -> exists D, decade v (E * 2 ^ 23 + j) = Fin (D * 2 ^ 149) /\
  -38 <= D <= 38 /\ above D ((2 ^ 23 + j) * 2 ^ (E - 1)) = true /\ below D ((2 ^ 23 + j) * 2 ^ (E - 1)) = true /\
  (D = -38 <-> E * 2 ^ 23 + j < least_scaled).
Proof.
  intros HE Hj. pose proof (pow2_pos (E - 1) ltac:(lia)) as PE.
  assert (M : forall x y, 0 <= x -> x <= y -> y < 2 ^ 23 -> whole (pos (E - 127) x) <= whole (pos (E - 127) y)) by (intros; apply whole_mono; lia).
  rewrite (decade_model v E j) by (clear - HE Hj; lia). exists (whole (pos (E - 127) j)). split; [reflexivity|].
  pose proof (M 0 j ltac:(clear - Hj; lia) ltac:(clear - Hj; lia) ltac:(clear - Hj; lia)) as M0.
  pose proof (M j (2 ^ 23 - 1) ltac:(clear - Hj; lia) ltac:(clear - Hj; lia) ltac:(clear - Hj; lia)) as M1.
  destruct (check_binade_spec E HE) as (Ca & Cb & C1 & C2 & C3 & C4 & S).
  pose proof (binade_step (fun x => whole (pos (E - 127) x)) (step_of E) E j Hj PE M Ca Cb S) as (A & B & V).
  clear Ca Cb S M PE.
  cbv beta in *. set (Wj := whole (pos (E - 127) j)) in *. set (W0 := whole (pos (E - 127) 0)) in *. set (W1 := whole (pos (E - 127) (2 ^ 23 - 1))) in *.
  clearbody Wj W0 W1. split; [lia|]. split; [exact A|]. split; [exact B|].
  unfold least_scaled. change 0x02081CC9 with (4 * 2 ^ 23 + 531657).
  destruct (Z.eq_dec E 4) as [->|N4].
  - rewrite step_4 in V. destruct (Z.ltb_spec j 531657); lia.
  - lia.
Qed.
