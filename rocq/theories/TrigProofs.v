(** * Bounds of the trigonometric functions. *)

From Verif Require Import Base TextModel NumModel StringModel SpecText FloatTextModel SpecFloatText SpecMath MathModel RoundProofs StrtodProofs FloatTextProofs FloatResult.
From Verif Require Import MathRound MathFast MathFloor MathExp TrigModel SpecTrig.

#[local] Arguments Z.pow : simpl never.

(** A number of units between two others. *)
Definition within (l h : Z) (x : f32) : Prop := exists a, x = Fin a /\ l <= a <= h.

Lemma rnd_le n d B : 0 < d -> rep (Z.abs B) -> n <= B * d -> rnd n d <= B.
Proof. intros D R H. rewrite <- (rnd_exact B d R D). apply rnd_mono; [exact D|exact D|nia]. Qed.
Lemma rnd_ge n d B : 0 < d -> rep (Z.abs B) -> B * d <= n -> B <= rnd n d.
Proof. intros D R H. rewrite <- (rnd_exact B d R D). apply rnd_mono; [exact D|exact D|nia]. Qed.

Lemma fround_within l h n d : 0 < d -> rep (Z.abs l) -> rep (Z.abs h) -> - 2 ^ 276 <= l -> h <= 2 ^ 276 -> l * d <= n <= h * d -> within l h (fround n d).
Proof.
  intros D L H BL BH R. rewrite (fround_fin n d 276 D); [|lia|revert BL BH; generalize (2 ^ 276); intros P BL BH; split; nia]. eexists. split; [reflexivity|].
  split; [apply rnd_ge|apply rnd_le]; tauto.
Qed.

Lemma within_weak l h l' h' x : l' <= l -> h <= h' -> within l h x -> within l' h' x.
Proof. intros A B (a & -> & H). exists a. split; [reflexivity|lia]. Qed.

(** Floats: multiples of a power of two below 2^24 times it. *)
Definition flo (q k : Z) : Z := q * 2 ^ k.
Lemma flo_rep q k : 0 <= k -> Z.abs q <= 2 ^ 24 -> rep (Z.abs (flo q k)).
Proof. apply rep_small. Qed.

Lemma within_add l h l1 h1 l2 h2 x y : rep (Z.abs l) -> rep (Z.abs h) -> - 2 ^ 276 <= l -> h <= 2 ^ 276 ->
  within l1 h1 x -> within l2 h2 y -> l <= l1 + l2 -> h1 + h2 <= h -> within l h (fadd x y).
Proof. intros Rl Rh Bl Bh (a & -> & A) (b & -> & B) L H. cbn [fadd]. apply fround_within; try assumption; lia. Qed.

Lemma within_sub l h l1 h1 l2 h2 x y : rep (Z.abs l) -> rep (Z.abs h) -> - 2 ^ 276 <= l -> h <= 2 ^ 276 ->
  within l1 h1 x -> within l2 h2 y -> l <= l1 - h2 -> h1 - l2 <= h -> within l h (fsub x y).
Proof. intros Rl Rh Bl Bh A (b & -> & B) L H. unfold fsub. cbn [fneg]. apply (within_add l h l1 h1 (- h2) (- l2)); try assumption; try lia. exists (- b). split; [reflexivity|lia]. Qed.

(** Products: of numbers that are not negative, and by magnitude. *)
Lemma within_mul h h1 h2 x y : rep h -> h <= 2 ^ 276 -> within 0 h1 x -> within 0 h2 y -> h1 * h2 <= h * 2 ^ 149 -> within 0 h (fmul x y).
Proof.
  intros Rh Bh (a & -> & A) (b & -> & B) H. assert (0 <= h) by (destruct Rh as (q & k & K & Q & ->); pose proof (pow2_pos k K); nia). cbn [fmul].
  apply fround_within; try lia; [exact rep_0|now rewrite Z.abs_eq by lia|]. split; [nia|]. apply Z.le_trans with (h1 * h2); [|lia]. apply Z.mul_le_mono_nonneg; lia.
Qed.

Lemma within_mul_abs h h1 h2 x y : rep h -> h <= 2 ^ 276 -> within (- h1) h1 x -> within (- h2) h2 y -> h1 * h2 <= h * 2 ^ 149 -> within (- h) h (fmul x y).
Proof.
  intros Rh Bh (a & -> & A) (b & -> & B) H. assert (0 <= h) by (destruct Rh as (q & k & K & Q & ->); pose proof (pow2_pos k K); nia). cbn [fmul].
  assert (Z.abs (a * b) <= h1 * h2) by (rewrite Z.abs_mul; apply Z.mul_le_mono_nonneg; lia).
  apply fround_within; try lia; [now rewrite Z.abs_opp, Z.abs_eq by lia|now rewrite Z.abs_eq by lia].
Qed.

(** Quotients. *)
Lemma within_div h h1 l2 h2 x y : rep h -> h <= 2 ^ 276 -> within 0 h1 x -> within l2 h2 y -> 0 < l2 -> h1 * 2 ^ 149 <= h * l2 -> within 0 h (fdiv x y).
Proof.
  intros Rh Bh (a & -> & A) (b & -> & B) L H. assert (0 <= h) by (destruct Rh as (q & k & K & Q & ->); pose proof (pow2_pos k K); nia). cbn [fdiv].
  destruct (Z.eqb_spec b 0); [lia|]. rewrite (Z.sgn_pos b), Z.mul_1_r, (Z.abs_eq b) by lia.
  apply fround_within; try lia; [exact rep_0|now rewrite Z.abs_eq by lia|]. split; [nia|]. apply Z.le_trans with (h1 * 2 ^ 149); [|nia]. apply Z.mul_le_mono_nonneg_r; lia.
Qed.

(** ** Arctan *)

Definition all_entries : bool := forallb (fun t => match of_bits t with Fin u => (0 <=? u) && (u <=? flo 13176795 125) | _ => false end) arctan_table.
Lemma arctan_entries : all_entries = true.
Proof. vm_compute. reflexivity. Qed.

Lemma arctan_entry k : 0 <= k <= 64 -> exists t, nth_error arctan_table (Z.to_nat k) = Some t /\ within 0 (flo 13176795 125) (of_bits t).
Proof.
  intros H. destruct (nth_error arctan_table (Z.to_nat k)) as [t|] eqn:E.
  - exists t. split; [reflexivity|]. pose proof arctan_entries as A. unfold all_entries in A. rewrite forallb_forall in A.
    specialize (A t (nth_error_In _ _ E)). destruct (of_bits t) as [u| |]; try discriminate. exists u. split; [reflexivity|]. lia.
  - apply nth_error_None in E. replace (length arctan_table) with 65%nat in E by reflexivity. lia.
Qed.

Lemma within_const n x : x = Fin n -> within n n x.
Proof. intros ->. exists n. split; [reflexivity|lia]. Qed.

Ltac fl := unfold flo in *; lia.
Ltac re := first [exact rep_0 | apply rep_pow; lia | (match goal with |- rep (Z.abs ?z) => rewrite (Z.abs_eq z) by (unfold flo; lia) end; first [exact rep_0 | apply rep_pow; lia]) | apply flo_rep; lia].

Lemma arctan_unit_ok v a : rep a -> 0 <= a <= 2 ^ 149 -> exists r, arctan_unit v (Fin a) = Ret (Fin r) /\ 0 <= r <= flo 13 145.
Proof.
  intros R A.
  assert (E1 : fmul (Fin a) (of_int 64) = Fin (64 * a)).
  { replace (of_int 64) with (Fin (64 * 2 ^ 149)) by (symmetry; apply of_int_fin; lia). cbn [fmul]. replace (a * (64 * 2 ^ 149)) with (64 * a * 2 ^ 149) by ring.
    rewrite (fround_fin _ _ 160) by lia. f_equal. apply rnd_exact; [|lia]. rewrite Z.abs_eq by lia. destruct R as (q & k & K & Q & ->). exists q, (6 + k).
    rewrite Z.pow_add_r by lia. lia. }
  unfold arctan_unit. rewrite E1, positive_floor_small by lia.
  pose proof (Z.div_mod (64 * a) (2 ^ 149) ltac:(lia)) as D. pose proof (Z.mod_pos_bound (64 * a) (2 ^ 149) ltac:(lia)) as M.
  set (k := 64 * a / 2 ^ 149) in *. clearbody k. assert (K : 0 <= k <= 64) by lia.
  replace (literal 15625 6) with (Fin (2 ^ 143)) by (vm_compute; reflexivity).
  assert (E2 : fmul (Fin (k * 2 ^ 149)) (Fin (2 ^ 143)) = Fin (k * 2 ^ 143)).
  { cbn [fmul]. replace (k * 2 ^ 149 * 2 ^ 143) with (k * 2 ^ 143 * 2 ^ 149) by ring. rewrite (fround_fin _ _ 150) by lia. f_equal. apply rnd_exact; [apply rep_small; lia|lia]. }
  rewrite E2. assert (E3 : to_int32 (Fin (k * 2 ^ 149)) = Ret k).
  { unfold to_int32. rewrite Z.quot_mul by lia. destruct (Z.leb_spec (- 2 ^ 31) k), (Z.ltb_spec k (2 ^ 31)); try lia. reflexivity. }
  rewrite E3. cbn [bind]. destruct (Z.ltb_spec k 0); [lia|]. destruct (arctan_entry k K) as (t & -> & T).
  assert (One : within (2 ^ 149) (2 ^ 149) (of_int 1)) by (apply within_const; rewrite of_int_1; f_equal; lia).
  assert (N : within 0 (2 ^ 143) (fsub (Fin a) (Fin (k * 2 ^ 143)))).
  { cbn [fsub fneg fadd]. apply fround_within; try lia; re. }
  assert (P : within 0 (2 ^ 149) (fmul (Fin a) (Fin (k * 2 ^ 143)))).
  { apply (within_mul _ (2 ^ 149) (2 ^ 149)); try lia; [re|exists a|exists (k * 2 ^ 143)]; (split; [reflexivity|lia]). }
  assert (Q : within (2 ^ 149) (2 ^ 150) (fadd (fmul (Fin a) (Fin (k * 2 ^ 143))) (of_int 1))).
  { apply (within_add _ _ 0 (2 ^ 149) (2 ^ 149) (2 ^ 149)); try assumption; try lia; re. }
  set (c := fdiv (fsub (Fin a) (Fin (k * 2 ^ 143))) (fadd (fmul (Fin a) (Fin (k * 2 ^ 143))) (of_int 1))).
  assert (C : within 0 (2 ^ 143) c) by (apply (within_div _ (2 ^ 143) (2 ^ 149) (2 ^ 150)); try assumption; try lia; re).
  clearbody c. assert (C2 : within 0 (2 ^ 137) (fmul c c)) by (apply (within_mul _ (2 ^ 143) (2 ^ 143)); try assumption; try lia; re).
  set (c2 := fmul c c) in *. clearbody c2.
  assert (L7 : exists u, literal 1428571429 10 = Fin u /\ 0 <= u <= 2 ^ 147) by (eexists; split; [vm_compute; reflexivity|vm_compute; split; discriminate]).
  assert (L5 : exists u, literal 2 1 = Fin u /\ 2 ^ 146 <= u <= 2 ^ 147) by (eexists; split; [vm_compute; reflexivity|vm_compute; split; discriminate]).
  assert (L3 : exists u, literal 3333333333 10 = Fin u /\ 0 <= u <= 3 * 2 ^ 146) by (eexists; split; [vm_compute; reflexivity|vm_compute; split; discriminate]).
  assert (W1 : within 0 (2 ^ 135) (fmul c2 (literal 1428571429 10))) by (apply (within_mul _ (2 ^ 137) (2 ^ 147)); try assumption; try lia; re).
  assert (W2 : within 0 (2 ^ 147) (fsub (literal 2 1) (fmul c2 (literal 1428571429 10)))).
  { apply (within_sub _ _ (2 ^ 146) (2 ^ 147) 0 (2 ^ 135)); try assumption; try lia; re. }
  assert (W3 : within 0 (2 ^ 135) (fmul c2 (fsub (literal 2 1) (fmul c2 (literal 1428571429 10))))) by (apply (within_mul _ (2 ^ 137) (2 ^ 147)); try assumption; try lia; re).
  assert (W4 : within 0 (2 ^ 148) (fadd (literal 3333333333 10) (fmul c2 (fsub (literal 2 1) (fmul c2 (literal 1428571429 10)))))).
  { apply (within_add _ _ 0 (3 * 2 ^ 146) 0 (2 ^ 135)); try assumption; try lia; re. }
  match type of W4 with within _ _ ?e => set (w4 := e) in * end. clearbody w4.
  assert (W5 : within 0 (2 ^ 136) (fmul c2 w4)) by (apply (within_mul _ (2 ^ 137) (2 ^ 148)); try assumption; try lia; re).
  assert (W6 : within 0 (2 ^ 149) (fsub (of_int 1) (fmul c2 w4))).
  { apply (within_sub _ _ (2 ^ 149) (2 ^ 149) 0 (2 ^ 136)); try assumption; try lia; re. }
  assert (W7 : within 0 (2 ^ 143) (fmul c (fsub (of_int 1) (fmul c2 w4)))) by (apply (within_mul _ (2 ^ 143) (2 ^ 149)); try assumption; try lia; re).
  assert (W8 : within 0 (flo 13 145) (fadd (of_bits t) (fmul c (fsub (of_int 1) (fmul c2 w4))))).
  { apply (within_add _ _ 0 (flo 13176795 125) 0 (2 ^ 143)); try assumption; try fl; re. }
  destruct W8 as (r & -> & Hr). exists r. split; [reflexivity|exact Hr].
Qed.

(** ** Sine and cosine *)

(** Rounding what is less than 2^k units moves it by at most 2^(k - 25). *)
Lemma fround_err k n d : 0 < d -> 25 <= k <= 276 -> Z.abs n < d * 2 ^ k -> exists r, fround n d = Fin r /\ Z.abs (r * d - n) <= d * 2 ^ (k - 25).
Proof.
  intros D K H. exists (rnd n d). split; [apply (fround_fin _ _ k); lia|]. pose proof (rnd_error n d D) as E.
  assert (G : gap (Z.abs n) d <= k - 24).
  { unfold gap. apply Z.max_lub; [lia|]. assert (Q : Z.abs n / d < 2 ^ k) by (apply Z.div_lt_upper_bound; lia).
    destruct (Z.eq_dec (Z.abs n / d) 0) as [->|N]; [change (Z.log2 0) with 0; lia|].
    assert (Z.log2 (Z.abs n / d) < k) by (apply Z.log2_lt_pow2; [|exact Q]; assert (0 <= Z.abs n / d) by (apply Z.div_pos; lia); lia). lia. }
  pose proof (Z.pow_le_mono_r 2 _ _ ltac:(lia) G) as P. replace (k - 24) with (k - 25 + 1) in P by lia. rewrite Z.pow_add_r in P by lia. change (2 ^ 1) with 2 in P.
  revert E P. generalize (2 ^ gap (Z.abs n) d) (2 ^ (k - 25)). intros g p E P. nia.
Qed.

(** The constants, in units: a 256th of a turn, its inverse, 1/6, 1/120, 1/24. *)
Definition step : Z := flo 13176795 120.
Definition steps : Z := flo 10680707 131.
Definition step_f (v : simd) : f32 := match v with Plain => literal 245436926 10 | _ => of_bits 0x3CC90FDB end.
Definition steps_f (v : simd) : f32 := match v with Plain => literal 4074366543 8 | _ => of_bits 0x4222F983 end.
Lemma step_fin v : step_f v = Fin step.
Proof. destruct v; vm_compute; reflexivity. Qed.
Lemma steps_fin v : steps_f v = Fin steps.
Proof. destruct v; vm_compute; reflexivity. Qed.

Definition cosine_part (v : simd) (b2 : f32) : f32 :=
  fsub (of_int 1) (fmul b2 (match v with
        | Plain => fsub (literal 5 1) (fmul b2 (literal 4166666667 11))
        | _ => fsub (of_bits 0x3F000000) (fmul b2 (of_bits 0x3D2AAAAB))
        end)).
Definition sine_part (v : simd) (b b2 : f32) : f32 :=
  fsub b (fmul (fmul b b2) (match v with
        | Plain => fsub (literal 1666666667 10) (fmul b2 (literal 8333333333 12))
        | _ => fsub (of_bits 0x3C088889) (fmul b2 (of_bits 0x3E2AAAAB))
        end)).

Lemma square_ok b : 0 <= b <= step -> exists q, fmul (Fin b) (Fin b) = Fin q /\ Z.abs (q * 2 ^ 149 - b * b) <= 2 ^ 149 * 2 ^ 114 /\ 0 <= q <= flo 5 136.
Proof.
  intros B. assert (S : b * b <= step * step) by nia. assert (S0 : 0 <= b * b) by nia. cbn [fmul].
  destruct (fround_err 139 (b * b) (2 ^ 149)) as (q & E & H); [lia|lia|unfold step in S; rewrite Z.abs_eq by exact S0; eapply Z.le_lt_trans; [exact S|reflexivity]|].
  exists q. split; [exact E|]. split; [exact H|]. assert (W : within 0 (flo 5 136) (fround (b * b) (2 ^ 149))).
  { apply fround_within; [lia|re|apply flo_rep; lia|lia|fl|]. split; [lia|]. eapply Z.le_trans; [exact S|]. now apply Z.leb_le. }
  destruct W as (q' & E' & W). rewrite E in E'. injection E' as <-. exact W.
Qed.

Lemma cosine_part_ok v b q : 0 <= b <= step -> Z.abs (q * 2 ^ 149 - b * b) <= 2 ^ 149 * 2 ^ 114 -> 0 <= q <= flo 5 136 ->
  exists cb, cosine_part v (Fin q) = Fin cb /\ 0 <= cb <= 2 ^ 149 /\ Z.abs (2 * 2 ^ 149 * cb - (2 * 2 ^ 149 * 2 ^ 149 - b * b)) <= 2 ^ 149 * 2 ^ 127.
Proof.
  intros B E Q. assert (Wq : within 0 (flo 5 136) (Fin q)) by (exists q; auto).
  assert (H : exists h, (match v with
        | Plain => fsub (literal 5 1) (fmul (Fin q) (literal 4166666667 11))
        | _ => fsub (of_bits 0x3F000000) (fmul (Fin q) (of_bits 0x3D2AAAAB))
        end) = Fin h /\ 2 ^ 148 - flo 7 132 <= h <= 2 ^ 148).
  { assert (G : forall x5 x24, x5 = Fin (2 ^ 148) -> within 0 (flo 11 142) x24 -> within (2 ^ 148 - flo 7 132) (2 ^ 148) (fsub x5 (fmul (Fin q) x24))).
    { intros x5 x24 -> W24. apply (within_sub _ _ (2 ^ 148) (2 ^ 148) 0 (flo 7 132)); try fl.
      - replace (2 ^ 148 - flo 7 132) with (flo 65529 132) by (vm_compute; reflexivity). apply flo_rep; lia.
      - re.
      - exists (2 ^ 148). split; [reflexivity|lia].
      - apply (within_mul _ (flo 5 136) (flo 11 142)); try assumption; [|now apply Z.leb_le|now apply Z.leb_le]. exists 7, 132. unfold flo. lia. }
    assert (C5 : literal 5 1 = Fin (2 ^ 148) /\ of_bits 0x3F000000 = Fin (2 ^ 148)) by (split; vm_compute; reflexivity).
    assert (C24 : literal 4166666667 11 = Fin (flo 11184811 121) /\ of_bits 0x3D2AAAAB = Fin (flo 11184811 121)) by (split; vm_compute; reflexivity).
    assert (W : within 0 (flo 11 142) (Fin (flo 11184811 121))) by (exists (flo 11184811 121); split; [reflexivity|split; now apply Z.leb_le]).
    destruct C5 as [C5 C5'], C24 as [C24 C24']. destruct v; rewrite ?C5, ?C5', ?C24, ?C24'; exact (G _ _ eq_refl W). }
  unfold cosine_part. destruct H as (h & -> & H). cbn [fmul].
  assert (QH : 0 <= q * h /\ q * h <= flo 5 136 * 2 ^ 148) by (unfold flo in *; split; nia).
  destruct (fround_err 139 (q * h) (2 ^ 149)) as (p & Ep & P); [lia|lia|rewrite Z.abs_eq by lia; eapply Z.le_lt_trans; [apply QH|reflexivity]|].
  assert (P1 : within 0 (2 ^ 139) (fround (q * h) (2 ^ 149))) by (revert QH; unfold flo; generalize (q * h); intros z QH; apply fround_within; try lia; re).
  rewrite Ep in *. destruct P1 as (p' & Ep' & P1). injection Ep' as <-. rewrite of_int_1. cbn [fsub fneg fadd].
  destruct (fround_err 150 (1 * 2 ^ 149 + - p) 1) as (cb & Ec & C); [lia|lia|lia|].
  assert (W : within 0 (2 ^ 149) (fround (1 * 2 ^ 149 + - p) 1)) by (apply fround_within; try lia; re).
  destruct W as (cb' & Ec' & W). rewrite Ec in Ec'. injection Ec' as <-. exists cb. split; [exact Ec|]. split; [exact W|].
  assert (QE : 0 <= q * (2 ^ 148 - h) <= flo 5 136 * flo 7 132) by (unfold flo in *; split; nia).
  replace (q * (2 ^ 148 - h)) with (q * 2 ^ 148 - q * h) in QE by ring. revert QE P E. clear - C. unfold flo. generalize (q * h) (b * b). intros z w QE P E.
  lia.
Qed.

Lemma sine_part_ok v b q : 0 <= b <= step -> 0 <= q <= flo 5 136 ->
  exists sb, sine_part v (Fin b) (Fin q) = Fin sb /\ - 2 ^ 119 <= b - sb <= 2 ^ 131.
Proof.
  intros B Q. assert (Wq : within 0 (flo 5 136) (Fin q)) by (exists q; auto). assert (Wb : within 0 step (Fin b)) by (exists b; auto).
  assert (G : forall x6 x120 c6 c120, x6 = Fin c6 -> x120 = Fin c120 -> 2 ^ 138 <= c6 <= flo 3 145 -> 0 <= c120 <= 2 ^ 147 ->
    within 0 (flo 3 145) (fsub x6 (fmul (Fin q) x120))).
  { intros x6 x120 c6 c120 -> -> H6 H120. apply (within_sub _ _ (2 ^ 138) (flo 3 145) 0 (2 ^ 138)); try fl; try re.
    - exists c6. auto.
    - apply (within_mul _ (flo 5 136) (2 ^ 147)); try assumption; [re|lia|exists c120; auto|now apply Z.leb_le]. }
  assert (C6 : literal 1666666667 10 = Fin (flo 11184811 123) /\ of_bits 0x3E2AAAAB = Fin (flo 11184811 123)) by (split; vm_compute; reflexivity).
  assert (C120 : literal 8333333333 12 = Fin (flo 8947849 119) /\ of_bits 0x3C088889 = Fin (flo 8947849 119)) by (split; vm_compute; reflexivity).
  assert (H : within 0 (flo 3 145) (match v with
        | Plain => fsub (literal 1666666667 10) (fmul (Fin q) (literal 8333333333 12))
        | _ => fsub (of_bits 0x3C088889) (fmul (Fin q) (of_bits 0x3E2AAAAB))
        end)).
  { destruct C6 as [C6 C6'], C120 as [C120 C120']. destruct v; rewrite ?C6, ?C6', ?C120, ?C120'; (eapply G; [reflexivity|reflexivity|split; now apply Z.leb_le|split; now apply Z.leb_le]). }
  unfold sine_part. destruct H as (w & -> & W).
  assert (M : within 0 (2 ^ 133) (fmul (Fin b) (Fin q))) by (apply (within_mul _ step (flo 5 136)); try assumption; [re|lia|now apply Z.leb_le]).
  assert (N : within 0 (flo 3 129) (fmul (fmul (Fin b) (Fin q)) (Fin w))).
  { apply (within_mul _ (2 ^ 133) (flo 3 145)); try assumption; [exists 3, 129; unfold flo; lia|fl|exists w; auto|now apply Z.leb_le]. }
  destruct N as (g & -> & N). cbn [fsub fneg fadd]. assert (St : step < 2 ^ 144) by reflexivity. revert B St. generalize step. intros st B St. unfold flo in *.
  destruct (fround_err 144 (b + - g) 1) as (sb & -> & S); [lia|lia|lia|]. exists sb. split; [reflexivity|]. lia.
Qed.

Lemma fround_rel n d : 0 < d -> 0 <= n <= d * 2 ^ 276 -> exists r, fround n d = Fin r /\ 2 ^ 24 * Z.abs (r * d - n) <= n + 2 ^ 23 * d.
Proof.
  intros D H. exists (rnd n d). split; [apply (fround_fin _ _ 276); lia|]. pose proof (rnd_error n d D) as E. rewrite (Z.abs_eq n) in E by lia.
  destruct (Z.eq_dec (gap n d) 0) as [Z|N].
  - rewrite Z in E. change (2 ^ 0) with 1 in E. lia.
  - pose proof (gap_nonneg n d). pose proof (gap_above n d ltac:(lia) D ltac:(lia)) as G. rewrite Z.pow_add_r in G by lia.
    revert E G. generalize (2 ^ gap n d). intros g E G. change (2 ^ 24) with (2 * 2 ^ 23). nia.
Qed.

Lemma land_255 n : Z.land n 255 = n mod 256.
Proof. change 255 with (Z.ones 8). apply Z.land_ones. lia. Qed.

Lemma trig_table_length : length trig_table = 256%nat.
Proof. reflexivity. Qed.

Lemma trig_parts_unfold v x : trig_parts v x =
  (let b := fmul (fabs_f x) (steps_f v) in
   let i := positive_floor v b in
   let b := fmul (fsub b i) (step_f v) in
   let! n := match v with Plain => to_int32 i | _ => Ret (truncate_convert i) end in
   match nth_error trig_table (Z.to_nat (Z.land n 255)) with
   | None => UB
   | Some (c, s) => Ret (of_bits c, of_bits s, cosine_part v (fmul b b), sine_part v b (fmul b b))
   end).
Proof. destruct v; reflexivity. Qed.

Lemma trig_parts_ok x a : fabs_f x = Fin a -> 0 <= a <= 2 ^ 166 -> exists n b cs sn,
  nth_error trig_table (Z.to_nat (n mod 256)) = Some (cs, sn) /\
  0 <= n /\ 0 <= b <= step /\
  (forall v, exists cb sb, trig_parts v x = Ret (of_bits cs, of_bits sn, Fin cb, Fin sb) /\
    0 <= cb <= 2 ^ 149 /\ Z.abs (2 * 2 ^ 149 * cb - (2 * 2 ^ 149 * 2 ^ 149 - b * b)) <= 2 ^ 149 * 2 ^ 127 /\ - 2 ^ 119 <= b - sb <= 2 ^ 131) /\
  2 ^ 22 * Z.abs (n * step + b - a) <= a + 2 ^ 143.
Proof.
  intros A HA.
  assert (K : 0 <= a * steps <= 2 ^ 149 * 2 ^ 172) by (unfold steps, flo; lia).
  destruct (fround_rel (a * steps) (2 ^ 149)) as (b0 & E0 & R0); [lia|lia|].
  assert (W0 : within 0 (2 ^ 172) (fround (a * steps) (2 ^ 149))) by (apply fround_within; try lia; re).
  rewrite E0 in W0. destruct W0 as (b0' & E0' & W0). injection E0' as <-.
  pose proof (Z.div_mod b0 (2 ^ 149) ltac:(lia)) as D. pose proof (Z.mod_pos_bound b0 (2 ^ 149) ltac:(lia)) as M.
  remember (b0 / 2 ^ 149) as n eqn:En. set (f := b0 mod 2 ^ 149) in *. clearbody f. assert (N : 0 <= n <= 2 ^ 23) by (clear En; lia).
  assert (T : to_int32 (Fin (n * 2 ^ 149)) = Ret n).
  { clear En. unfold to_int32. rewrite Z.quot_mul by lia. destruct (Z.leb_spec (- 2 ^ 31) n), (Z.ltb_spec n (2 ^ 31)); try lia. reflexivity. }
  destruct (nth_error trig_table (Z.to_nat (n mod 256))) as [[cs sn]|] eqn:ET.
  2: { apply nth_error_None in ET. rewrite trig_table_length in ET. pose proof (Z.mod_pos_bound n 256 ltac:(lia)). clear En. lia. }
  destruct (fround_err 149 f 1) as (f1 & E1 & R1); [lia|lia|clear En; lia|].
  assert (W1 : within 0 (2 ^ 149) (fround f 1)) by (clear En; apply fround_within; try lia; re).
  rewrite E1 in W1. destruct W1 as (f1' & E1' & W1). injection E1' as <-.
  assert (ST : 0 < step /\ step < 2 ^ 144) by (split; reflexivity).
  assert (W2 : within 0 step (fmul (Fin f1) (Fin step))).
  { clear En. apply (within_mul _ (2 ^ 149) step); [apply (flo_rep 13176795 120); lia|lia|exists f1; auto|exists step; split; [reflexivity|lia]|lia]. }
  cbn [fmul] in W2. assert (F1 : 0 <= f1 * step <= 2 ^ 149 * step) by (clear En; nia).
  destruct (fround_err 144 (f1 * step) (2 ^ 149)) as (b & E2 & R2); [lia|lia|clear En; lia|].
  rewrite E2 in W2. destruct W2 as (b' & E2' & W2). injection E2' as <-.
  destruct (square_ok b W2) as (q & Eq & Rq & Q). cbn [fmul] in Eq.
  exists n, b, cs, sn. split; [exact ET|]. split; [exact (proj1 N)|]. split; [exact W2|]. split.
  { intros v. destruct (cosine_part_ok v b q W2 Rq Q) as (cb & Ec & C1 & C2). destruct (sine_part_ok v b q W2 Q) as (sb & Es & S1). exists cb, sb. split; [|auto].
    rewrite trig_parts_unfold, A, steps_fin, step_fin. cbn [fmul]. rewrite E0. cbv zeta. rewrite positive_floor_small by exact W0. rewrite <- En.
    assert (T' : match v with Plain => to_int32 (Fin (n * 2 ^ 149)) | _ => Ret (truncate_convert (Fin (n * 2 ^ 149))) end = Ret n).
    { unfold truncate_convert. destruct v; now rewrite T. }
    rewrite T'. cbn [bind]. rewrite land_255, ET.
    cbn [fsub fneg fadd]. replace (b0 + - (n * 2 ^ 149)) with f by (clear En; lia). rewrite E1. cbn [fmul]. rewrite E2. cbn [fmul]. rewrite Eq, Ec, Es. reflexivity. }
  clear - HA R0 D M N R1 R2 ST F1 W2.
  (* the position is that of the argument *)
  assert (P1 : Z.abs (b * 2 ^ 149 - f * step) <= 2 ^ 149 * 2 ^ 120).
  { assert (Z.abs (f1 * step - f * step) <= 2 ^ 124 * 2 ^ 144) by (replace (f1 * step - f * step) with ((f1 - f) * step) by ring; rewrite Z.abs_mul; apply Z.mul_le_mono_nonneg; lia).
    revert R2 H. generalize (f1 * step) (f * step). intros. lia. }
  assert (P2 : Z.abs ((n * step + b) * 2 ^ 149 - b0 * step) <= 2 ^ 149 * 2 ^ 120).
  { replace ((n * step + b) * 2 ^ 149 - b0 * step) with (b * 2 ^ 149 - f * step) by (rewrite D; ring). exact P1. }
  revert R0 P2. generalize (n * step + b). intros p R0 P2. clear - R0 P2 HA.
  assert (P3 : 2 ^ 24 * Z.abs (b0 * step * 2 ^ 149 - a * steps * step) <= (a * steps + 2 ^ 23 * 2 ^ 149) * step).
  { replace (b0 * step * 2 ^ 149 - a * steps * step) with ((b0 * 2 ^ 149 - a * steps) * step) by ring. rewrite Z.abs_mul, (Z.abs_eq step) by (unfold step, flo; lia).
    assert (0 < step) by reflexivity. nia. }
  unfold steps, step, flo in *. lia.
Qed.

(** Sums of two products. *)
Lemma combine_ok x y z w : Z.abs x <= 2 ^ 149 -> Z.abs y <= 2 ^ 149 -> Z.abs z <= 2 ^ 149 -> Z.abs w < 2 ^ 144 ->
  (exists r, fadd (fmul (Fin x) (Fin y)) (fmul (Fin z) (Fin w)) = Fin r /\ Z.abs (r * 2 ^ 149 - (x * y + z * w)) <= 2 ^ 149 * 2 ^ 127) /\
  (exists r, fsub (fmul (Fin x) (Fin y)) (fmul (Fin z) (Fin w)) = Fin r /\ Z.abs (r * 2 ^ 149 - (x * y - z * w)) <= 2 ^ 149 * 2 ^ 127).
Proof.
  intros X Y Z W. cbn [fmul].
  assert (XY : Z.abs (x * y) <= 2 ^ 149 * 2 ^ 149) by (rewrite Z.abs_mul; apply Z.mul_le_mono_nonneg; lia).
  assert (ZW : Z.abs (z * w) <= 2 ^ 149 * 2 ^ 144) by (rewrite Z.abs_mul; apply Z.mul_le_mono_nonneg; lia).
  revert XY ZW. generalize (x * y) (z * w). intros p q P Q. clear - P Q.
  destruct (fround_err 150 p (2 ^ 149)) as (m & -> & M); [lia|lia|lia|]. destruct (fround_err 145 q (2 ^ 149)) as (k & -> & K); [lia|lia|lia|].
  cbn [fsub fneg fadd].
  destruct (fround_err 151 (m + k) 1) as (r1 & -> & R1); [lia|lia|lia|]. destruct (fround_err 151 (m + - k) 1) as (r2 & -> & R2); [lia|lia|lia|].
  split; eexists; (split; [reflexivity|lia]).
Qed.

(** The table, all of it. *)
Definition entry_near (e : Z * Z) (p : Z * Z) : bool :=
  match of_bits (fst e), of_bits (snd e) with
  | Fin c, Fin s => (Z.abs (c * 2 ^ 60 - fst p * 2 ^ 149) <=? 2 ^ 37 * 2 ^ 149) && (Z.abs (s * 2 ^ 60 - snd p * 2 ^ 149) <=? 2 ^ 37 * 2 ^ 149) &&
      (Z.abs c <=? 2 ^ 149) && (Z.abs s <=? 2 ^ 149) && (Z.abs (fst p) <=? 2 ^ 61) && (Z.abs (snd p) <=? 2 ^ 61)
  | _, _ => false
  end.
Fixpoint table_near (l : list (Z * Z)) (p : Z * Z) : bool :=
  match l with [] => true | e :: l => entry_near e p && table_near l (rotate p) end.
Lemma trig_table_near : table_near trig_table (2 ^ 60, 0) = true.
Proof. vm_compute. reflexivity. Qed.

Lemma iter_next {A} (f : A -> A) k p : Nat.iter k f (f p) = f (Nat.iter k f p).
Proof. induction k as [|k IH]; [reflexivity|]. change (Nat.iter (S k) f (f p)) with (f (Nat.iter k f (f p))). now rewrite IH. Qed.
Lemma table_near_nth l : forall p k e, table_near l p = true -> nth_error l k = Some e -> entry_near e (Nat.iter k rotate p) = true.
Proof.
  induction l as [|e0 l IH]; intros p k e T E; [now destruct k|]. cbn [table_near] in T. apply andb_true_iff in T as [T1 T2].
  destruct k as [|k]; cbn [nth_error] in E; [injection E as <-; exact T1|]. specialize (IH _ _ _ T2 E). rewrite iter_next in IH. exact IH.
Qed.
Lemma trig_entry k cs sn : nth_error trig_table k = Some (cs, sn) -> exists c s, of_bits cs = Fin c /\ of_bits sn = Fin s /\
  Z.abs c <= 2 ^ 149 /\ Z.abs s <= 2 ^ 149 /\ Z.abs (c * 2 ^ 60 - fst (circle k) * 2 ^ 149) <= 2 ^ 37 * 2 ^ 149 /\ Z.abs (s * 2 ^ 60 - snd (circle k) * 2 ^ 149) <= 2 ^ 37 * 2 ^ 149.
Proof.
  intros E. pose proof (table_near_nth _ _ _ _ trig_table_near E) as H. fold (circle k) in H. unfold entry_near in H. cbn [fst snd] in H.
  destruct (of_bits cs) as [c| |]; try discriminate. destruct (of_bits sn) as [s| |]; try discriminate. exists c, s.
  rewrite !andb_true_iff in H. destruct H as (((((H1 & H2) & H3) & H4) & _) & _). apply Z.leb_le in H1, H2, H3, H4. auto 10.
Qed.

(** One of the two results: [x] and [z] are the table's, [g1] and [g2] the exact ones, [e] is 1 or -1. *)
Lemma expand_ok e x z g1 g2 b cb sb r : e = 1 \/ e = -1 ->
  Z.abs x <= 2 ^ 149 -> Z.abs z <= 2 ^ 149 -> 0 <= b <= step -> Z.abs (x * 2 ^ 60 - g1 * 2 ^ 149) <= 2 ^ 37 * 2 ^ 149 -> Z.abs (z * 2 ^ 60 - g2 * 2 ^ 149) <= 2 ^ 37 * 2 ^ 149 ->
  Z.abs (2 * 2 ^ 149 * cb - (2 * 2 ^ 149 * 2 ^ 149 - b * b)) <= 2 ^ 149 * 2 ^ 127 -> - 2 ^ 119 <= b - sb <= 2 ^ 131 ->
  Z.abs (r * 2 ^ 149 - (x * cb + e * (z * sb))) <= 2 ^ 149 * 2 ^ 127 ->
  Z.abs (r * (2 ^ 60 * 2 * 2 ^ 149) - (g1 * (2 * 2 ^ 298 - b * b) + e * (2 * g2 * b * 2 ^ 149))) <= 2 ^ 45 * 2 ^ 298.
Proof.
  intros He X Z B G1 G2 C S R. assert (ST : step < 2 ^ 144) by reflexivity. assert (B' : 0 <= b < 2 ^ 144) by lia. clear B ST.
  set (U := 2 ^ 149) in *. assert (EU : 2 ^ 298 = U * U) by reflexivity. rewrite EU. clear EU.
  (* one error at a time *)
  assert (E1 : Z.abs (x * (2 * U * cb - (2 * U * U - b * b))) <= U * (U * 2 ^ 127)) by (rewrite Z.abs_mul; apply Z.mul_le_mono_nonneg; lia).
  assert (E2 : Z.abs (z * (b - sb)) <= U * 2 ^ 131) by (rewrite Z.abs_mul; apply Z.mul_le_mono_nonneg; lia).
  assert (BB : 0 <= b * b <= 2 ^ 144 * 2 ^ 144) by (split; [lia|apply Z.mul_le_mono_nonneg; lia]).
  assert (E3 : Z.abs ((x * 2 ^ 60 - g1 * U) * (2 * (U * U) - b * b)) <= 2 ^ 37 * U * (2 * (U * U))) by (rewrite Z.abs_mul; apply Z.mul_le_mono_nonneg; subst U; lia).
  assert (E4 : Z.abs ((z * 2 ^ 60 - g2 * U) * b) <= 2 ^ 37 * U * 2 ^ 144) by (rewrite Z.abs_mul; apply Z.mul_le_mono_nonneg; lia).
  revert E1 E2 E3 E4 R. rewrite !Z.mul_sub_distr_l, !Z.mul_sub_distr_r.
  replace (x * (2 * U * cb)) with (2 * U * (x * cb)) by ring. replace (x * (2 * U * U)) with (2 * U * U * x) by ring.
  replace (x * 2 ^ 60 * (2 * (U * U))) with (2 ^ 60 * (2 * U * U) * x) by ring. replace (x * 2 ^ 60 * (b * b)) with (2 ^ 60 * (x * (b * b))) by ring.
  replace (g1 * U * (2 * (U * U))) with (U * (g1 * (2 * (U * U)))) by ring. replace (g1 * U * (b * b)) with (U * (g1 * (b * b))) by ring.
  replace (z * 2 ^ 60 * b) with (2 ^ 60 * (z * b)) by ring. replace (g2 * U * b) with (U * (g2 * b)) by ring.
  replace (e * (2 * g2 * b * U)) with (2 * U * (e * (g2 * b))) by ring.
  generalize (x * cb) (x * (b * b)) (z * b) (z * sb) (g2 * b) (g1 * (b * b)) (g1 * (2 * (U * U))). intros t1 t2 t3 t4 t5 t6 t7 E1 E2 E3 E4 R. subst U. clear - He E1 E2 E3 E4 R.
  destruct He as [-> | ->]; lia.
Qed.

(** Sine and cosine for arguments up to 2^17, before the sign is applied. *)
Lemma sine_cosine_ok x a : fabs_f x = Fin a -> 0 <= a <= 2 ^ 166 -> exists n b, 0 <= n /\ 0 <= b <= 2 ^ 144 /\ 2 ^ 21 * Z.abs (n * part + b - a) <= a + 2 ^ 143 /\
  forall v, exists p s c, trig_parts v x = Ret p /\ sine_of p = Fin s /\ cosine_of p = Fin c /\
    Z.abs (s * (2 ^ 60 * 2 * 2 ^ 149) - sine_at n b) <= 2 ^ 45 * 2 ^ 298 /\ Z.abs (c * (2 ^ 60 * 2 * 2 ^ 149) - cosine_at n b) <= 2 ^ 45 * 2 ^ 298.
Proof.
  intros A HA. destruct (trig_parts_ok x a A HA) as (n & b & cs & sn & ET & N & B & V & P). exists n, b. split; [exact N|].
  assert (ST : step < 2 ^ 144) by reflexivity. split; [lia|]. split.
  { clear - HA N B P. unfold step, part, flo in *. lia. }
  intros v. destruct (V v) as (cb & sb & E & C & Cb & S). clear V. destruct (trig_entry _ _ _ ET) as (ca & sa & Ec & Es & Xc & Xs & Gc & Gs).
  rewrite Ec, Es in E. exists (Fin ca, Fin sa, Fin cb, Fin sb).
  assert (Sb : Z.abs sb < 2 ^ 144) by (clear - B S; unfold step, flo in *; lia). assert (Cb' : Z.abs cb <= 2 ^ 149) by lia.
  destruct (combine_ok sa cb ca sb Xs Cb' Xc Sb) as [(r & Er & R) _]. destruct (combine_ok ca cb sa sb Xc Cb' Xs Sb) as [_ (r' & Er' & R')].
  exists r, r'. split; [exact E|]. split; [exact Er|]. split; [exact Er'|]. unfold sine_at, cosine_at. destruct (circle (Z.to_nat (n mod 256))) as [g1 g2]. cbn [fst snd] in *. split.
  - replace (2 * g1 * b * 2 ^ 149) with (1 * (2 * g1 * b * 2 ^ 149)) by ring. apply (expand_ok 1 sa ca g2 g1 b cb sb r); auto. now rewrite Z.mul_1_l.
  - replace (g1 * (2 * 2 ^ 298 - b * b) - 2 * g2 * b * 2 ^ 149) with (g1 * (2 * 2 ^ 298 - b * b) + -1 * (2 * g2 * b * 2 ^ 149)) by ring. apply (expand_ok (-1) ca sa g1 g2 b cb sb r'); auto.
Qed.

(** SSE2 and SSE4 differ only in how they round down. *)
Lemma sse_parts x a : fabs_f x = Fin a -> 0 <= a <= 2 ^ 166 -> trig_parts Sse2 x = trig_parts Sse4 x.
Proof.
  intros A HA. rewrite !trig_parts_unfold, A, !steps_fin, !step_fin. cbn [fmul].
  assert (W0 : within 0 (2 ^ 172) (fround (a * steps) (2 ^ 149))) by (apply fround_within; try re; unfold steps, flo; lia).
  destruct W0 as (b0 & -> & W0). cbv zeta. rewrite !positive_floor_small by exact W0. reflexivity.
Qed.

(** ** Accuracy of Arctan *)

Fixpoint arcs_near (l : list Z) (k : nat) (g : Z) : bool :=
  match l with
  | [] => true
  | t :: l => match of_bits t with Fin u => Z.abs (u * 2 ^ 60 - g * 2 ^ 149) <=? 2 ^ 37 * 2 ^ 149 | _ => false end &&
      arcs_near l (S k) (g + small_arc (2 ^ 66 / (4096 + Z.of_nat k * (Z.of_nat k + 1))))
  end.
Lemma arctan_table_near : arcs_near arctan_table 0 0 = true.
Proof. vm_compute. reflexivity. Qed.
Lemma arcs_near_nth l : forall k j t, arcs_near l k (arc k) = true -> nth_error l j = Some t ->
  exists u, of_bits t = Fin u /\ Z.abs (u * 2 ^ 60 - arc (j + k) * 2 ^ 149) <= 2 ^ 37 * 2 ^ 149.
Proof.
  induction l as [|t0 l IH]; intros k j t A E; [now destruct j|]. cbn [arcs_near] in A. apply andb_true_iff in A as [A1 A2].
  destruct j as [|j]; cbn [nth_error] in E.
  - injection E as <-. destruct (of_bits t0) as [u| |]; try discriminate. exists u. split; [reflexivity|]. now apply Z.leb_le in A1.
  - destruct (IH (S k) j t A2 E) as (u & Eu & H). exists u. split; [exact Eu|]. replace (S j + k)%nat with (j + S k)%nat by lia. exact H.
Qed.

Lemma arctan_unit_near v a : rep a -> 0 <= a <= 2 ^ 149 -> exists k r, 0 <= k <= 64 /\ k * 2 ^ 149 <= 64 * a < (k + 1) * 2 ^ 149 /\
  arctan_unit v (Fin a) = Ret (Fin r) /\
  Z.abs (r * 2 ^ 60 * (64 * 2 ^ 149 + a * k) - (arc (Z.to_nat k) * (64 * 2 ^ 149 + a * k) + 2 ^ 60 * (64 * a - k * 2 ^ 149)) * 2 ^ 149) <= 2 ^ 42 * 2 ^ 149 * (64 * 2 ^ 149 + a * k).
Proof.
  intros R A.
  assert (E1 : fmul (Fin a) (of_int 64) = Fin (64 * a)).
  { replace (of_int 64) with (Fin (64 * 2 ^ 149)) by (symmetry; apply of_int_fin; lia). cbn [fmul]. replace (a * (64 * 2 ^ 149)) with (64 * a * 2 ^ 149) by ring.
    rewrite (fround_fin _ _ 160) by lia. f_equal. apply rnd_exact; [|lia]. rewrite Z.abs_eq by lia. destruct R as (q & k & K & Q & ->). exists q, (6 + k).
    rewrite Z.pow_add_r by lia. lia. }
  unfold arctan_unit. rewrite E1, positive_floor_small by lia. clear E1 R.
  pose proof (Z.div_mod (64 * a) (2 ^ 149) ltac:(lia)) as D. pose proof (Z.mod_pos_bound (64 * a) (2 ^ 149) ltac:(lia)) as M.
  set (k := 64 * a / 2 ^ 149) in *. clearbody k. assert (K : 0 <= k <= 64) by lia.
  assert (KA : k * 2 ^ 149 <= 64 * a < (k + 1) * 2 ^ 149) by lia. clear D M.
  replace (literal 15625 6) with (Fin (2 ^ 143)) by (vm_compute; reflexivity).
  assert (E2 : fmul (Fin (k * 2 ^ 149)) (Fin (2 ^ 143)) = Fin (k * 2 ^ 143)).
  { cbn [fmul]. replace (k * 2 ^ 149 * 2 ^ 143) with (k * 2 ^ 143 * 2 ^ 149) by ring. rewrite (fround_fin _ _ 150) by lia. f_equal. apply rnd_exact; [apply rep_small; lia|lia]. }
  rewrite E2. assert (E3 : to_int32 (Fin (k * 2 ^ 149)) = Ret k).
  { unfold to_int32. rewrite Z.quot_mul by lia. destruct (Z.leb_spec (- 2 ^ 31) k), (Z.ltb_spec k (2 ^ 31)); try lia. reflexivity. }
  rewrite E3. clear E2 E3. cbn [bind]. destruct (Z.ltb_spec k 0); [lia|]. destruct (arctan_entry k K) as (t & ET & T). rewrite ET.
  destruct (arcs_near_nth _ 0 _ _ arctan_table_near ET) as (u & Eu & TN). rewrite Nat.add_0_r in TN. rewrite Eu in T |- *. destruct T as (u' & Eu' & T). injection Eu' as <-. clear ET Eu.
  rewrite of_int_1, Z.mul_1_l. remember (arc (Z.to_nat k)) as g eqn:Eg.
  (* the rest *)
  assert (N : exists n1, fsub (Fin a) (Fin (k * 2 ^ 143)) = Fin n1 /\ Z.abs (n1 - (a - k * 2 ^ 143)) <= 2 ^ 119 /\ 0 <= n1 <= 2 ^ 143).
  { cbn [fsub fneg fadd]. destruct (fround_err 144 (a + - (k * 2 ^ 143)) 1) as (n1 & E & H1); [lia|lia|lia|].
    assert (W : within 0 (2 ^ 143) (fround (a + - (k * 2 ^ 143)) 1)) by (apply fround_within; try lia; re).
    rewrite E in W. destruct W as (n' & E' & W). injection E' as <-. exists n1. split; [exact E|]. split; [lia|exact W]. }
  destruct N as (n1 & -> & N1 & N2).
  assert (AK : 0 <= a * k <= 2 ^ 149 * 64) by (split; [lia|apply Z.mul_le_mono_nonneg; lia]).
  assert (P : exists d, fadd (fmul (Fin a) (Fin (k * 2 ^ 143))) (Fin (2 ^ 149)) = Fin d /\ Z.abs (64 * d - (64 * 2 ^ 149 + a * k)) <= 2 ^ 133 /\ 2 ^ 149 <= d <= 2 ^ 150).
  { cbn [fmul]. replace (a * (k * 2 ^ 143)) with (a * k * 2 ^ 143) by ring. revert AK. generalize (a * k). intros ak AK.
    destruct (fround_err 150 (ak * 2 ^ 143) (2 ^ 149)) as (m & E & H1); [lia|lia|lia|].
    assert (W : within 0 (2 ^ 149) (fround (ak * 2 ^ 143) (2 ^ 149))) by (apply fround_within; try lia; re).
    rewrite E in W |- *. destruct W as (m' & E' & W). injection E' as <-. cbn [fadd].
    destruct (fround_err 151 (m + 2 ^ 149) 1) as (d & Ed & H2); [lia|lia|lia|].
    assert (W2 : within (2 ^ 149) (2 ^ 150) (fround (m + 2 ^ 149) 1)) by (apply fround_within; try lia; re).
    rewrite Ed in W2 |- *. destruct W2 as (d' & Ed' & W2). injection Ed' as <-. exists d. split; [reflexivity|]. split; [lia|exact W2]. }
  destruct P as (d & -> & D1 & D2).
  assert (C : exists c, fdiv (Fin n1) (Fin d) = Fin c /\ Z.abs (c * d - n1 * 2 ^ 149) <= d * 2 ^ 119 /\ 0 <= c <= 2 ^ 143).
  { cbn [fdiv]. destruct (Z.eqb_spec d 0); [lia|]. rewrite (Z.sgn_pos d), Z.mul_1_r, (Z.abs_eq d) by lia.
    destruct (fround_err 144 (n1 * 2 ^ 149) d) as (c & E & H1); [lia|lia|lia|].
    assert (W : within 0 (2 ^ 143) (fround (n1 * 2 ^ 149) d)) by (apply fround_within; try lia; re).
    rewrite E in W |- *. destruct W as (c' & E' & W). injection E' as <-. exists c. auto. }
  destruct C as (c & -> & C1 & C2).
  assert (WC : within 0 (2 ^ 143) (Fin c)) by (exists c; auto).
  assert (WC2 : within 0 (2 ^ 137) (fmul (Fin c) (Fin c))) by (apply (within_mul _ (2 ^ 143) (2 ^ 143)); try assumption; try lia; re).
  set (c2 := fmul (Fin c) (Fin c)) in *. clearbody c2.
  assert (One : within (2 ^ 149) (2 ^ 149) (Fin (2 ^ 149))) by (apply within_const; reflexivity).
  assert (L7 : exists w, literal 1428571429 10 = Fin w /\ 0 <= w <= 2 ^ 147) by (eexists; split; [vm_compute; reflexivity|vm_compute; split; discriminate]).
  assert (L5 : exists w, literal 2 1 = Fin w /\ 2 ^ 146 <= w <= 2 ^ 147) by (eexists; split; [vm_compute; reflexivity|vm_compute; split; discriminate]).
  assert (L3 : exists w, literal 3333333333 10 = Fin w /\ 0 <= w <= 3 * 2 ^ 146) by (eexists; split; [vm_compute; reflexivity|vm_compute; split; discriminate]).
  assert (W1 : within 0 (2 ^ 135) (fmul c2 (literal 1428571429 10))) by (apply (within_mul _ (2 ^ 137) (2 ^ 147)); try assumption; try lia; re).
  assert (W2 : within 0 (2 ^ 147) (fsub (literal 2 1) (fmul c2 (literal 1428571429 10)))).
  { apply (within_sub _ _ (2 ^ 146) (2 ^ 147) 0 (2 ^ 135)); try assumption; try lia; re. }
  assert (W3 : within 0 (2 ^ 135) (fmul c2 (fsub (literal 2 1) (fmul c2 (literal 1428571429 10))))) by (apply (within_mul _ (2 ^ 137) (2 ^ 147)); try assumption; try lia; re).
  assert (W4 : within 0 (2 ^ 148) (fadd (literal 3333333333 10) (fmul c2 (fsub (literal 2 1) (fmul c2 (literal 1428571429 10)))))).
  { apply (within_add _ _ 0 (3 * 2 ^ 146) 0 (2 ^ 135)); try assumption; try lia; re. }
  match type of W4 with within _ _ ?e => set (w4 := e) in * end. clearbody w4.
  assert (W5 : within 0 (2 ^ 136) (fmul c2 w4)) by (apply (within_mul _ (2 ^ 137) (2 ^ 148)); try assumption; try lia; re).
  assert (W6 : within (2 ^ 149 - 2 ^ 136) (2 ^ 149) (fsub (Fin (2 ^ 149)) (fmul c2 w4))).
  { apply (within_sub _ _ (2 ^ 149) (2 ^ 149) 0 (2 ^ 136)); try assumption; try lia; try re.
    replace (2 ^ 149 - 2 ^ 136) with (flo 8191 136) by (vm_compute; reflexivity). apply flo_rep; lia. }
  destruct W6 as (w6 & -> & W6). clear W1 W2 W3 W4 W5 L7 L5 L3 One WC2.
  assert (AC : exists ac, fmul (Fin c) (Fin w6) = Fin ac /\ Z.abs (ac - c) <= 2 ^ 131 - 2 ^ 129 /\ 0 <= ac <= 2 ^ 143).
  { assert (W7 : within 0 (2 ^ 143) (fmul (Fin c) (Fin w6))) by (apply (within_mul _ (2 ^ 143) (2 ^ 149)); try assumption; try lia; [re|exists w6; split; [reflexivity|lia]]).
    cbn [fmul] in *. assert (CW : 0 <= c * (2 ^ 149 - w6) <= 2 ^ 143 * 2 ^ 136) by (clear - C2 W6; split; [apply Z.mul_nonneg_nonneg; lia|apply Z.mul_le_mono_nonneg; lia]).
    assert (CW' : 0 <= c * w6) by (apply Z.mul_nonneg_nonneg; lia). rewrite Z.mul_sub_distr_l in CW. revert CW CW' W7. generalize (c * w6). intros z CW CW' W7.
    destruct (fround_err 144 z (2 ^ 149)) as (ac & E & H1); [lia|lia|lia|]. rewrite E in W7 |- *. destruct W7 as (ac' & E' & W7). injection E' as <-.
    exists ac. split; [reflexivity|]. split; [lia|exact W7]. }
  destruct AC as (ac & -> & AC1 & AC2). cbn [fadd].
  destruct (fround_err 150 (u + ac) 1) as (r & -> & R1); [lia|lia|clear - T AC2; unfold flo in *; lia|].
  exists k, r. split; [exact K|]. split; [exact KA|]. split; [reflexivity|].
  (* all together *) rewrite <- Eg.
  clear - K A KA N1 N2 AK D1 D2 C1 C2 AC1 AC2 R1 TN.
  assert (CD : Z.abs (c * (64 * 2 ^ 149 + a * k) - (64 * a - k * 2 ^ 149) * 2 ^ 149) <= 2 ^ 277).
  { revert AK D1. generalize (a * k). intros ak AK D1.
    assert (X : Z.abs (c * (64 * d - (64 * 2 ^ 149 + ak))) <= 2 ^ 143 * 2 ^ 133) by (rewrite Z.abs_mul; apply Z.mul_le_mono_nonneg; lia).
    rewrite Z.mul_sub_distr_l in X. replace (c * (64 * d)) with (64 * (c * d)) in X by ring. revert X C1. generalize (c * d) (c * (64 * 2 ^ 149 + ak)). intros cd cx X C1. lia. }
  set (D0 := 64 * 2 ^ 149 + a * k) in *. assert (HD : 2 ^ 155 <= D0) by (unfold D0; lia). clearbody D0. clear AK D1 C1 D2 N1 N2.
  revert CD. generalize (64 * a - k * 2 ^ 149). intros N0 CD. clear A KA K.
  assert (X1 : Z.abs (D0 * (r - (u + ac))) <= D0 * 2 ^ 125) by (rewrite Z.abs_mul, (Z.abs_eq D0) by lia; apply Z.mul_le_mono_nonneg_l; lia).
  assert (X2 : Z.abs (D0 * (u * 2 ^ 60 - g * 2 ^ 149)) <= D0 * (2 ^ 37 * 2 ^ 149)) by (rewrite Z.abs_mul, (Z.abs_eq D0) by lia; apply Z.mul_le_mono_nonneg_l; lia).
  assert (X3 : Z.abs (D0 * (ac - c)) <= D0 * (2 ^ 131 - 2 ^ 129)) by (rewrite Z.abs_mul, (Z.abs_eq D0) by lia; apply Z.mul_le_mono_nonneg_l; lia).
  clear TN AC1 R1 AC2 C2. rewrite !Z.mul_sub_distr_l, Z.mul_add_distr_l in *. replace (D0 * (u * 2 ^ 60)) with (2 ^ 60 * (D0 * u)) in X2 by ring. replace (D0 * (g * 2 ^ 149)) with (2 ^ 149 * (D0 * g)) in X2 by ring.
  replace (r * 2 ^ 60 * D0) with (2 ^ 60 * (D0 * r)) by ring. replace (g * D0) with (D0 * g) by ring. replace (c * D0) with (D0 * c) in CD by ring.
  revert X1 X2 X3 CD. generalize (D0 * r) (D0 * u) (D0 * ac) (D0 * g) (D0 * c). intros z1 z2 z3 z4 z5 X1 X2 X3 CD. lia.
Qed.
