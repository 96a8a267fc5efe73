(** * Proofs about the readers of tokens and the path functions *)

From Verif Require Import Base TextModel StringModel ToolsModel SpecNum SpecText SpecMap SpecTools ToolsProofs NumberedProofs.

(** Storage after writing [t] and the terminator behind [w]. *)
Definition written (w t f : list Z) : list Z := w ++ t ++ 0 :: skipn (S (length t)) f.

Lemma wr_next w c f : (0 < length f)%nat -> wr (w ++ f) (length w) c = Ret ((w ++ [c]) ++ skipn 1 f).
Proof.
  destruct f as [|x f]; simpl; [lia|]. intros _. rewrite wr_app, <- app_assoc. reflexivity.
Qed.

Lemma wr_stop w f : (0 < length f)%nat -> wr (w ++ f) (length w) 0 = Ret (written w [] f).
Proof. intros L. rewrite wr_next by trivial. unfold written. rewrite <- app_assoc. reflexivity. Qed.

Lemma snoc_length (w : list Z) c : length (w ++ [c]) = S (length w).
Proof. rewrite app_length. simpl. lia. Qed.

Lemma written_next w c t f : written (w ++ [c]) t (skipn 1 f) = written w (c :: t) f.
Proof.
  unfold written. rewrite <- app_assoc. simpl. do 4 f_equal.
  destruct f; simpl; [destruct (length t); reflexivity|reflexivity].
Qed.

Lemma written_stored t b : (length t < length b)%nat -> stored b t (written [] t b).
Proof.
  intros L. unfold stored, written. cbn [app].
  assert (E : length t = length t) by reflexivity.
  repeat split.
  - rewrite app_length. cbn [length]. rewrite skipn_length. lia.
  - replace (t ++ 0 :: skipn (S (length t)) b) with ((t ++ [0]) ++ skipn (S (length t)) b) by (rewrite <- app_assoc; reflexivity).
    rewrite firstn_app, (firstn_all2 (t ++ [0])) by (rewrite snoc_length; lia).
    rewrite snoc_length, Nat.sub_diag, firstn_O, app_nil_r. reflexivity.
  - replace (t ++ 0 :: skipn (S (length t)) b) with ((t ++ [0]) ++ skipn (S (length t)) b) by (rewrite <- app_assoc; reflexivity).
    rewrite skipn_app, (skipn_all2 (t ++ [0])) by (rewrite snoc_length; lia).
    rewrite snoc_length, Nat.sub_diag. reflexivity.
Qed.

(** ** Sign and body *)

Definition digit_b (c : Z) : bool := (48 <=? c) && (c <=? 57).
Lemma digit_b_spec c : reflect (digit c) (digit_b c).
Proof. apply iff_reflect. unfold digit_b, digit. rewrite andb_true_iff, !Z.leb_le. tauto. Qed.

Lemma not_digit_u32 c : is_byte c -> (10 <=? u32 (c - 48)) = negb (digit_b c).
Proof.
  intros B. pose proof (u32_digit c B) as H. destruct (digit_b_spec c) as [D|D]; simpl.
  - apply H in D. lia.
  - pose proof (u32_digit_no c B D). lia.
Qed.

Fixpoint digit_run (s : list Z) : list Z :=
  match s with
  | [] => []
  | c :: s' => if digit_b c then c :: digit_run s' else []
  end.

Fixpoint float_run (d e : bool) (s : list Z) : list Z :=
  match s with
  | [] => []
  | c :: s' =>
      if c =? 46 then if d then c :: float_run false e s' else []
      else if (c =? 101) || (c =? 69) then if e then c :: float_run d false s' else []
      else if digit_b c then c :: float_run d e s' else []
  end.

Lemma rd_app (s : list Z) r : rd (s ++ 0 :: r) 0 = Ret (hd 0 s).
Proof. destruct s; reflexivity. Qed.

Lemma skip_app c (s r : list Z) : skipn 1 ((c :: s) ++ r) = s ++ r.
Proof. reflexivity. Qed.

Lemma read_integer_loop_ok n : forall s r w f t, bytes s -> t = firstn n (digit_run s) -> (length t < length f)%nat ->
  read_integer_loop n (s ++ 0 :: r) (w ++ f) (length w) = Ret (written w t f, (length w + length t)%nat).
Proof.
  induction n as [|n IH]; intros s r w f t B -> L.
  - simpl. simpl in L. rewrite wr_stop by lia. simpl. f_equal. f_equal. lia.
  - cbn [read_integer_loop]. rewrite rd_app. cbn [bind]. destruct s as [|c s].
    + simpl in L. change (10 <=? u32 (hd 0 [] - 48)) with true. cbv beta iota. rewrite wr_stop by lia. simpl.
      f_equal. f_equal. lia.
    + inversion_clear B. cbn [hd]. rewrite (not_digit_u32 c H). cbn [digit_run] in *. destruct (digit_b c); cbn [negb].
      * cbn [firstn length] in L. rewrite wr_next by lia. cbn [bind]. rewrite skip_app, <- (snoc_length w c).
        rewrite (IH s r _ (skipn 1 f) _ H0 eq_refl) by (rewrite skipn_length; lia).
        rewrite written_next, snoc_length. cbn [firstn length]. f_equal. f_equal. lia.
      * simpl in L. rewrite wr_stop by lia. simpl. f_equal. f_equal. lia.
Qed.

Lemma read_float_loop_ok n : forall s r d e x w f t, bytes s -> t = firstn n (float_run (negb d) (negb e) s) -> (length t < length f)%nat ->
  read_float_loop n (s ++ 0 :: r) d e x (w ++ f) (length w) = Ret (written w t f, (length w + length t)%nat).
Proof.
  induction n as [|n IH]; intros s r d e x w f t B -> L.
  - simpl. simpl in L. rewrite wr_stop by lia. simpl. f_equal. f_equal. lia.
  - assert (Stop : (0 < length f)%nat -> (let! b := wr (w ++ f) (length w) 0 in Ret (b, length w)) = Ret (written w [] f, (length w + 0)%nat)).
    { intros L0. rewrite wr_stop by lia. simpl. f_equal. f_equal. lia. }
    cbn [read_float_loop]. rewrite rd_app. cbn [bind]. destruct s as [|c s].
    + simpl in L. apply Stop. lia.
    + inversion_clear B. cbn [hd].
      assert (Go : forall d' e' x' t', t' = firstn n (float_run (negb d') (negb e') s) -> (S (length t') < length f)%nat ->
        (let! b := wr (w ++ f) (length w) c in read_float_loop n (skipn 1 ((c :: s) ++ 0 :: r)) d' e' x' b (S (length w)))
        = Ret (written w (c :: t') f, (length w + S (length t'))%nat)).
      { intros d' e' x' t' E L'. rewrite wr_next by lia. cbn [bind]. rewrite skip_app, <- (snoc_length w c).
        rewrite (IH s r d' e' x' _ (skipn 1 f) _ H0 E) by (rewrite skipn_length; lia).
        rewrite written_next, snoc_length. f_equal. f_equal. lia. }
      rewrite (not_digit_u32 c H). cbn [float_run] in *.
      destruct (Z.eqb_spec c 46).
      { destruct d; cbn [negb] in *; cbn [firstn length] in *; [apply Stop; lia|]. apply Go; trivial. }
      destruct ((c =? 101) || (c =? 69)).
      { destruct e; cbn [negb] in *; cbn [firstn length] in *; [apply Stop; lia|]. apply Go; trivial. }
      destruct (digit_b_spec c) as [D|D]; cbn [negb firstn length] in *.
      * destruct (Z.eqb_spec c 45); [unfold digit in D; lia|]. cbn [andb]. apply Go; trivial.
      * destruct ((c =? 45) && x); apply Stop; lia.
Qed.

(** Properties of the runs. *)
Definition run_of (B : list Z -> Prop) (run : list Z -> list Z) : Prop :=
  (forall t, ~ B (45 :: t)) /\ forall s, B (run s) /\
  exists rest, s = run s ++ rest /\ forall c rest', rest = c :: rest' -> ~ B (run s ++ [c]).

Lemma digit_run_of : run_of (Forall digit) digit_run.
Proof.
  split; [intros t H; inversion_clear H; unfold digit in *; lia|].
  intros s. induction s as [|c s (H & rest & E & N)]; simpl.
  - split; [constructor|]. exists []. split; trivial. discriminate.
  - destruct (digit_b_spec c) as [D|D].
    + split; [constructor; trivial|]. exists rest. split; [simpl; congruence|].
      intros c' rest' -> H'. simpl in H'. inversion_clear H'. apply (N c' rest' eq_refl). trivial.
    + split; [constructor|]. exists (c :: s). split; trivial. intros c' rest' E' H'. injection E' as <- _.
      inversion_clear H'. contradiction.
Qed.

Lemma float_run_of d e : run_of (float_body d e) (float_run d e).
Proof.
  split; [intros t H; inversion_clear H; unfold digit, is_e in *; lia|].
  intros s. revert d e. induction s as [|c s IH]; intros d e.
  - split; [constructor|]. exists []. split; trivial. discriminate.
  - assert (None : ~ float_body d e [c] -> float_body d e [] /\
      (exists rest, c :: s = [] ++ rest /\ forall c' rest', rest = c' :: rest' -> ~ float_body d e ([] ++ [c']))).
    { intros H. split; [constructor|]. exists (c :: s). split; trivial. intros c' rest' E. injection E as <- _. exact H. }
    assert (Some_ : forall d' e', (forall t, float_body d' e' t <-> float_body d e (c :: t)) ->
      float_body d e (c :: float_run d' e' s) /\
      (exists rest, c :: s = (c :: float_run d' e' s) ++ rest /\ forall c' rest', rest = c' :: rest' -> ~ float_body d e ((c :: float_run d' e' s) ++ [c']))).
    { intros d' e' Eq. destruct (IH d' e') as (H & rest & E & N). split; [apply Eq; trivial|]. exists rest.
      split; [simpl; congruence|]. intros c' rest' E'. simpl. rewrite <- Eq. eauto. }
    cbn [float_run]. destruct (Z.eqb_spec c 46) as [->|N1].
    { destruct d; [apply Some_|apply None; intros H; inversion H; subst; unfold digit, is_e in *; lia].
      intros t. split; intros H; [apply fb_point; trivial|]. inversion H; subst; trivial; unfold digit, is_e in *; lia. }
    destruct (Z.eqb_spec c 101) as [->|N2]; [|destruct (Z.eqb_spec c 69) as [->|N3]]; cbn [orb].
    1, 2: destruct e; [apply Some_|apply None; intros H; inversion H; subst; unfold digit, is_e in *; lia];
      intros t; (split; intros H; [apply fb_exp; [unfold is_e; auto|trivial]|inversion H; subst; trivial; unfold digit, is_e in *; lia]).
    destruct (digit_b_spec c) as [D|D].
    + apply Some_. intros t. split; intros H; [apply fb_digit; trivial|].
      inversion H; subst; trivial; unfold digit, is_e in *; lia.
    + apply None. intros H. inversion H; subst; unfold is_e in *; try contradiction; lia.
Qed.

Definition signed (B : list Z -> Prop) (t : list Z) : Prop := exists t', B t' /\ (t = t' \/ t = 45 :: t').

Lemma signed_minus B run s : run_of B run -> longest_prefix (signed B) (45 :: s) (45 :: run s).
Proof.
  intros (N45 & H). destruct (H s) as (Hs & rest & E & N). split; [exists (run s); auto|].
  exists rest. split; [simpl; congruence|]. intros c rest' Er (t' & Bt & [E'|E']).
  - simpl in E'. subst t'. destruct (N45 _ Bt).
  - simpl in E'. injection E' as <-. destruct (N c rest' Er Bt).
Qed.

Lemma signed_plain B run s : run_of B run -> hd 0 s <> 45 -> longest_prefix (signed B) s (run s).
Proof.
  intros (N45 & H) N. destruct (H s) as (Hs & rest & E & Nx). split; [exists (run s); auto|].
  exists rest. split; trivial. intros c rest' Er (t' & Bt & [E'|E']).
  - subst t'. destruct (Nx c rest' Er Bt).
  - rewrite E, Er in N. destruct (run s); simpl in *; injection E' as -> _; lia.
Qed.

Lemma prefix_unique (P : list Z -> Prop) s t t' : (forall u v, P (u ++ v) -> P u) ->
  longest_prefix P s t -> longest_prefix P s t' -> t = t'.
Proof.
  intros C (Pt & r & E & N) (Pt' & r' & E' & N'). subst s.
  assert (G : forall a b x y : list Z, a ++ x = b ++ y -> (exists z, b = a ++ z) \/ (exists z, a = b ++ z)).
  { induction a as [|c a IH]; intros [|d b] x y H; simpl in *; eauto.
    injection H as -> H. destruct (IH b x y H) as [(z & ->)|(z & ->)]; eauto. }
  destruct (G _ _ _ _ E') as [(z & ->)|(z & ->)].
  - destruct z as [|c z]; [rewrite app_nil_r; trivial|]. rewrite <- app_assoc in E'. apply app_inv_head in E'.
    destruct (N c (z ++ r') E'). apply (C (t ++ [c]) z). rewrite <- app_assoc. exact Pt'.
  - destruct z as [|c z]; [rewrite app_nil_r; trivial|]. rewrite <- app_assoc in E'. apply app_inv_head in E'.
    destruct (N' c (z ++ r) (eq_sym E')). apply (C (t' ++ [c]) z). rewrite <- app_assoc. exact Pt.
Qed.

Lemma dec_ok max : - 2 ^ 31 < max -> dec max = Ret (max - 1).
Proof. intros H. unfold dec. destruct (Z.leb_spec max (- 2 ^ 31)); [lia|reflexivity]. Qed.

Lemma read_integer_ok p s b max : holds p s -> bytes s -> - 2 ^ 31 + 1 < max -> (Z.to_nat max < length b)%nat ->
  exists t, longest_prefix integer_token s t /\
    read_integer p b max = Ret (written [] (firstn (Z.to_nat max) t) b, length (firstn (Z.to_nat max) t)).
Proof.
  intros (N & r & ->) B M L. unfold read_integer. rewrite rd_app. cbn [bind].
  assert (F : forall t : list Z, (length (firstn (Z.to_nat max) t) < length b)%nat) by (intros t; rewrite firstn_length; lia).
  destruct s as [|c s]; [|destruct (Z.eqb_spec c 45) as [->|N1]].
  - exists []. split; [apply (signed_plain _ digit_run []); [apply digit_run_of|discriminate]|]. cbn [hd].
    change (0 =? 45) with false. cbv iota. rewrite max_rounds_ok by lia. cbn [bind].
    apply (read_integer_loop_ok _ [] r [] b _ B eq_refl). apply F.
  - exists (45 :: digit_run s). split; [apply signed_minus; apply digit_run_of|]. cbn [hd]. rewrite Z.eqb_refl.
    rewrite dec_ok by lia. cbn [bind]. rewrite max_rounds_ok by lia. cbn [bind]. inversion_clear B.
    destruct (Z.leb_spec 0 (max - 1)).
    + replace (Z.to_nat max) with (S (Z.to_nat (max - 1))) in * by lia. specialize (F (45 :: digit_run s)). cbn [firstn length] in *.
      pose proof (wr_next [] 45 b ltac:(lia)) as W. cbn [app length] in W. rewrite W. cbn [bind].
      change (skipn 1 ((45 :: s) ++ 0 :: r)) with (s ++ 0 :: r).
      pose proof (read_integer_loop_ok (Z.to_nat (max - 1)) s r [45] (skipn 1 b) _ H0 eq_refl) as R. cbn [negb] in R. rewrite skipn_length in R.
      change (length [45]) with 1%nat in R. cbn [app Nat.add] in R. rewrite R by lia.
      change [45] with ([] ++ [45]) at 1. rewrite written_next. reflexivity.
    + replace (Z.to_nat max) with O in * by lia. replace (Z.to_nat (max - 1)) with O by lia.
      pose proof (wr_stop [] b ltac:(lia)) as W. cbn [app length] in W. cbn [read_integer_loop read_float_loop].
      rewrite W. reflexivity.
  - exists (digit_run (c :: s)). split; [apply signed_plain; [apply digit_run_of|trivial]|]. cbn [hd].
    destruct (Z.eqb_spec c 45); [contradiction|].
    rewrite max_rounds_ok by lia. cbn [bind]. apply (read_integer_loop_ok _ (c :: s) r [] b _ B eq_refl). apply F.
Qed.

Lemma read_float_ok p s b max : holds p s -> bytes s -> - 2 ^ 31 + 1 < max -> (Z.to_nat max < length b)%nat ->
  exists t, longest_prefix float_token s t /\
    read_float p b max = Ret (written [] (firstn (Z.to_nat max) t) b, length (firstn (Z.to_nat max) t)).
Proof.
  intros (N & r & ->) B M L. unfold read_float. rewrite rd_app. cbn [bind].
  assert (F : forall t : list Z, (length (firstn (Z.to_nat max) t) < length b)%nat) by (intros t; rewrite firstn_length; lia).
  destruct s as [|c s]; [|destruct (Z.eqb_spec c 45) as [->|N1]].
  - exists []. split; [apply (signed_plain _ (float_run true true) []); [apply float_run_of|discriminate]|]. cbn [hd].
    change (0 =? 45) with false. cbv iota. rewrite max_rounds_ok by lia. cbn [bind].
    apply (read_float_loop_ok _ [] r false false true [] b _ B eq_refl). apply F.
  - exists (45 :: float_run true true s). split; [apply signed_minus; apply float_run_of|]. cbn [hd]. rewrite Z.eqb_refl.
    rewrite dec_ok by lia. cbn [bind]. rewrite max_rounds_ok by lia. cbn [bind]. inversion_clear B.
    destruct (Z.leb_spec 0 (max - 1)).
    + replace (Z.to_nat max) with (S (Z.to_nat (max - 1))) in * by lia. specialize (F (45 :: float_run true true s)). cbn [firstn length] in *.
      pose proof (wr_next [] 45 b ltac:(lia)) as W. cbn [app length] in W. rewrite W. cbn [bind].
      change (skipn 1 ((45 :: s) ++ 0 :: r)) with (s ++ 0 :: r).
      pose proof (read_float_loop_ok (Z.to_nat (max - 1)) s r false false true [45] (skipn 1 b) _ H0 eq_refl) as R. cbn [negb] in R. rewrite skipn_length in R.
      change (length [45]) with 1%nat in R. cbn [app Nat.add] in R. rewrite R by lia.
      change [45] with ([] ++ [45]) at 1. rewrite written_next. reflexivity.
    + replace (Z.to_nat max) with O in * by lia. replace (Z.to_nat (max - 1)) with O by lia.
      pose proof (wr_stop [] b ltac:(lia)) as W. cbn [app length] in W. cbn [read_integer_loop read_float_loop].
      rewrite W. reflexivity.
  - exists (float_run true true (c :: s)). split; [apply signed_plain; [apply float_run_of|trivial]|]. cbn [hd].
    destruct (Z.eqb_spec c 45); [contradiction|].
    rewrite max_rounds_ok by lia. cbn [bind]. apply (read_float_loop_ok _ (c :: s) r false false true [] b _ B eq_refl). apply F.
Qed.

(** ** Strings *)

Lemma stop_here {A} w f (k : A) : (0 < length f)%nat ->
  (let! b := wr (w ++ f) (length w) 0 in Ret (b, k)) = Ret (written w [] f, k).
Proof. intros L. rewrite wr_stop by trivial. reflexivity. Qed.

(** Any text, any bound: nothing is read or written outside. *)
Lemma read_quoted_safe n : forall s r bs w f k, (n < length f)%nat ->
  exists t m, read_quoted_loop n (s ++ 0 :: r) bs (w ++ f) (length w) k = Ret (written w t f, (k + m)%nat) /\
    (length t <= m)%nat /\ (m <= n)%nat /\ (m <= length s)%nat.
Proof.
  induction n as [|n IH]; intros s r bs w f k L.
  - exists [], O. cbn [read_quoted_loop]. rewrite stop_here by lia. repeat split; try (simpl; lia). f_equal. f_equal. lia.
  - cbn [read_quoted_loop]. rewrite rd_app. cbn [bind]. destruct s as [|c s].
    { exists [], O. cbn [hd]. change (0 =? 0) with true. cbv iota. rewrite stop_here by lia. repeat split; try (simpl; lia). f_equal. f_equal. lia. }
    cbn [hd]. destruct (c =? 0).
    { exists [], O. rewrite stop_here by lia. repeat split; try (simpl; lia). f_equal. f_equal. lia. }
    rewrite skip_app. destruct (negb (c =? 92) || bs).
    + destruct ((c =? 34) && negb bs).
      { exists [], 1%nat. rewrite stop_here by lia. repeat split; try (simpl; lia). f_equal. f_equal. lia. }
      rewrite wr_next by lia. cbn [bind]. rewrite <- (snoc_length w c).
      destruct (IH s r false (w ++ [c]) (skipn 1 f) (S k)) as (t & m & -> & L1 & L2 & L3); [rewrite skipn_length; lia|].
      exists (c :: t), (S m). rewrite written_next. repeat split; try (simpl; lia). f_equal. f_equal. lia.
    + destruct (IH s r true w f (S k)) as (t & m & -> & L1 & L2 & L3); [lia|].
      exists t, (S m). repeat split; try (simpl; lia). f_equal. f_equal. lia.
Qed.

(** The text begins with the inside [b] of a quoted string with meaning [t]. *)
Lemma read_quoted_inside b t : inside 34 b t -> forall n rest w f k, nul_free b -> (length b <= n)%nat -> (length t < length f)%nat ->
  read_quoted_loop n (b ++ rest) false (w ++ f) (length w) k =
  read_quoted_loop (n - length b) rest false (w ++ t ++ skipn (length t) f) (length w + length t) (k + length b).
Proof.
  induction 1 as [|c b t N1 N2 I IH|c b t I IH]; intros n rest w f k NF Ln Lf.
  - simpl. rewrite Nat.sub_0_r, !Nat.add_0_r. reflexivity.
  - destruct n as [|n]; [simpl in Ln; lia|]. inversion_clear NF. cbn [app read_quoted_loop]. simpl in Ln, Lf.
    unfold rd at 1. cbn [nth_error bind skipn].
    destruct (Z.eqb_spec c 0); [contradiction|]. destruct (Z.eqb_spec c 92); [contradiction|].
    destruct (Z.eqb_spec c 34); [contradiction|]. cbn [negb orb andb].
    rewrite wr_next by lia. cbn [bind]. rewrite <- (snoc_length w c).
    rewrite (IH n rest (w ++ [c]) (skipn 1 f) (S k)) by (trivial; try rewrite skipn_length; lia).
    rewrite snoc_length. cbn [length]. replace (S n - S (length b))%nat with (n - length b)%nat by lia.
    replace (S (length w) + length t)%nat with (length w + S (length t))%nat by lia.
    replace (S k + length b)%nat with (k + S (length b))%nat by lia.
    f_equal. rewrite <- app_assoc. cbn [app]. do 3 f_equal. destruct f; [simpl in Lf; lia|reflexivity].
  - destruct n as [|[|n]]; try (simpl in Ln; lia). inversion_clear NF. inversion_clear H0. cbn [app read_quoted_loop]. simpl in Ln, Lf.
    unfold rd at 1. cbn [nth_error bind skipn].
    change (92 =? 0) with false. change (negb (92 =? 92) || false) with false. cbv iota.
    unfold rd at 1. cbn [nth_error bind skipn].
    destruct (Z.eqb_spec c 0); [contradiction|]. rewrite orb_true_r, andb_false_r.
    rewrite wr_next by lia. cbn [bind]. rewrite <- (snoc_length w c).
    rewrite (IH n rest (w ++ [c]) (skipn 1 f) (S (S k))) by (trivial; try rewrite skipn_length; lia).
    rewrite snoc_length. cbn [length]. replace (S (S n) - S (S (length b)))%nat with (n - length b)%nat by lia.
    replace (S (length w) + length t)%nat with (length w + S (length t))%nat by lia.
    replace (S (S k) + length b)%nat with (k + S (S (length b)))%nat by lia.
    f_equal. rewrite <- app_assoc. cbn [app]. do 3 f_equal. destruct f; [simpl in Lf; lia|reflexivity].
Qed.

Lemma written_mid w t f : (length t < length f)%nat ->
  wr (w ++ t ++ skipn (length t) f) (length w + length t) 0 = Ret (written w t f).
Proof.
  intros L. rewrite app_assoc, <- app_length. rewrite wr_next by (rewrite skipn_length; lia).
  unfold written. f_equal. rewrite <- !app_assoc. simpl. do 3 f_equal.
  clear w. revert f L. induction t as [|c t IH]; intros [|x f] L; simpl in *; try lia; trivial. apply IH. lia.
Qed.

Lemma read_quoted_exact b t rest n f : inside 34 b t -> nul_free b -> (length b <= n)%nat -> (length t < length f)%nat ->
  (n = length b \/ hd 0 rest = 0 /\ rest <> [] ->
     read_quoted_loop n (b ++ rest) false f 0 1 = Ret (written [] t f, S (length b))) /\
  ((length b < n)%nat -> read_quoted_loop n (b ++ 34 :: rest) false f 0 1 = Ret (written [] t f, S (S (length b)))).
Proof.
  intros I NF Ln Lf. pose proof (written_mid [] t f Lf) as W. cbn [app length] in W. split; intros H.
  - pose proof (read_quoted_inside b t I n rest [] f 1 NF Ln Lf) as E. cbn [app length] in E. rewrite E.
    destruct H as [->|[H N]].
    + rewrite Nat.sub_diag. cbn [read_quoted_loop]. rewrite W. reflexivity.
    + destruct rest as [|c rest]; [contradiction|]. simpl in H. subst c.
      destruct (n - length b)%nat; cbn [read_quoted_loop]; [rewrite W; reflexivity|].
      unfold rd. cbn [nth_error bind]. change (0 =? 0) with true. cbv iota. rewrite W. reflexivity.
  - pose proof (read_quoted_inside b t I n (34 :: rest) [] f 1 NF Ln Lf) as E. cbn [app length] in E. rewrite E.
    destruct (n - length b)%nat eqn:En; [lia|]. cbn [read_quoted_loop]. unfold rd. cbn [nth_error bind].
    change (34 =? 0) with false. change (negb (34 =? 92) || false) with true. change ((34 =? 34) && negb false) with true.
    cbv iota. rewrite W. reflexivity.
Qed.

(** Unquoted strings. *)
Definition ends_b (s : list Z) : bool :=
  match s with
  | [] => true
  | c :: s' => (c <? 33) || ((c =? 47) && (hd 0 s' =? 47))
  end.

Lemma ends_spec s : ends_b s = true <-> string_ends s.
Proof.
  destruct s as [|c s]; simpl; [split; [constructor|trivial]|].
  rewrite orb_true_iff, andb_true_iff, Z.ltb_lt, !Z.eqb_eq. split.
  - intros [L|[-> H]]; [constructor; trivial|]. destruct s as [|d s]; simpl in H; [discriminate|]. subst. apply se_comment.
  - intros H. inversion H; subst; [left; trivial|right; auto].
Qed.

Fixpoint plain_run (s : list Z) : list Z :=
  match s with
  | [] => []
  | c :: s' => if ends_b (c :: s') then [] else c :: plain_run s'
  end.

Lemma plain_run_up_to s : up_to string_ends s (plain_run s).
Proof.
  induction s as [|c s (rest & E & H & N)].
  - exists []. repeat split; [constructor|]. simpl. lia.
  - cbn [plain_run]. destruct (ends_b (c :: s)) eqn:Ee.
    + exists (c :: s). repeat split; [apply ends_spec; trivial|]. simpl. lia.
    + exists rest. split; [simpl; congruence|]. split; trivial. intros [|j] L.
      * intros H'. apply ends_spec in H'. change (skipn 0 (c :: s)) with (c :: s) in H'. congruence.
      * simpl. apply N. simpl in L. lia.
Qed.

Lemma up_to_unique E s t t' : up_to E s t -> up_to E s t' -> t = t'.
Proof.
  intros (r & Es & Er & N) (r' & Es' & Er' & N').
  assert (L : length t = length t').
  { destruct (Nat.lt_trichotomy (length t) (length t')) as [L|[L|L]]; trivial.
    - destruct (N' _ L). rewrite Es, skipn_app, skipn_all, Nat.sub_diag. exact Er.
    - destruct (N _ L). rewrite Es', skipn_app, skipn_all, Nat.sub_diag. exact Er'. }
  assert (G : forall (a x : list Z), firstn (length a) (a ++ x) = a).
  { intros a x. rewrite firstn_app, firstn_all, Nat.sub_diag. apply app_nil_r. }
  rewrite <- (G t r), <- Es, L, Es'. apply G.
Qed.

Lemma read_plain_ok n : forall s r w f t, nul_free s -> t = firstn n (plain_run s) -> (length t < length f)%nat ->
  read_plain_loop n (s ++ 0 :: r) (w ++ f) (length w) = Ret (written w t f, (length w + length t)%nat).
Proof.
  induction n as [|n IH]; intros s r w f t NF -> L.
  - cbn [read_plain_loop]. simpl in L. rewrite stop_here by lia. simpl. f_equal. f_equal. lia.
  - cbn [read_plain_loop]. rewrite rd_app. cbn [bind]. destruct s as [|c s].
    { simpl in L. cbn [hd]. change ((0 =? 0) || (0 <? 33)) with true. cbv iota. rewrite stop_here by lia. simpl. f_equal. f_equal. lia. }
    inversion_clear NF. cbn [hd]. destruct (Z.eqb_spec c 0); [contradiction|]. cbn [orb].
    assert (Go : forall t', t' = firstn n (plain_run s) -> (S (length t') < length f)%nat ->
      (let! b := wr (w ++ f) (length w) c in read_plain_loop n (skipn 1 ((c :: s) ++ 0 :: r)) b (S (length w)))
      = Ret (written w (c :: t') f, (length w + S (length t'))%nat)).
    { intros t' E L'. rewrite wr_next by lia. cbn [bind]. rewrite skip_app, <- (snoc_length w c).
      rewrite (IH s r _ (skipn 1 f) _ H0 E) by (rewrite skipn_length; lia).
      rewrite written_next, snoc_length. f_equal. f_equal. lia. }
    assert (Stop : (0 < length f)%nat -> (let! b := wr (w ++ f) (length w) 0 in Ret (b, length w)) = Ret (written w [] f, (length w + 0)%nat)).
    { intros L0. rewrite stop_here by lia. f_equal. f_equal. lia. }
    cbn [plain_run ends_b] in *. destruct (c <? 33); cbn [orb] in *; [apply Stop; simpl in L; lia|].
    destruct (c =? 47); cbn [andb] in *.
    + replace (rd ((c :: s) ++ 0 :: r) 1) with (Ret (hd 0 s)) by (destruct s; reflexivity). cbn [bind].
      destruct (hd 0 s =? 47); [apply Stop; simpl in L; lia|apply Go; trivial].
    + apply Go; trivial.
Qed.

(** ** Types *)

Lemma read_type_safe s : forall p bs v k, holds p s -> exists v' m, read_type_loop p bs v k = Ret (v', (k + m)%nat) /\ (m <= length s)%nat.
Proof.
  induction s as [|c s IH]; intros p bs v k H.
  - destruct (holds_nil _ H) as (r & ->). exists v, O. simpl. rewrite Nat.add_0_r. auto.
  - destruct (holds_cons _ _ _ H) as (p' & -> & N & H'). cbn [read_type_loop]. destruct (Z.eqb_spec c 0); [contradiction|].
    destruct (negb (c =? 92) || bs).
    + destruct ((c =? 39) && negb bs).
      * exists v, 1%nat. split; [f_equal; f_equal; lia|simpl; lia].
      * destruct (IH p' false (Z.lor (u32 (Z.shiftl v 8)) c) (S k) H') as (v' & m & -> & L).
        exists v', (S m). split; [f_equal; f_equal; lia|simpl; lia].
    + destruct (IH p' true v (S k) H') as (v' & m & -> & L). exists v', (S m). split; [f_equal; f_equal; lia|simpl; lia].
Qed.

Lemma pack_step v c : is_byte c -> Z.lor (u32 (Z.shiftl v 8)) c = (v * 256 + c) mod 4294967296.
Proof.
  unfold is_byte. intros H. rewrite Z.shiftl_mul_pow2 by lia. change (2 ^ 8) with 256. unfold u32.
  assert (E : (v * 256) mod 4294967296 = 256 * (v mod 16777216)).
  { rewrite Z.mul_comm. change 4294967296 with (256 * 16777216). rewrite Z.mul_mod_distr_l by lia. reflexivity. }
  assert (R := Z.mod_pos_bound v 16777216 ltac:(lia)).
  replace ((v * 256 + c) mod 4294967296) with (256 * (v mod 16777216) + c).
  - rewrite E. rewrite <- Z.lxor_lor; [rewrite <- Z.add_nocarry_lxor; [reflexivity|]|].
    all: apply Z.bits_inj'; intros n Hn; rewrite Z.land_spec, Z.bits_0;
      (destruct (Z.lt_ge_cases n 8);
        [replace (256 * (v mod 16777216)) with (Z.shiftl (v mod 16777216) 8) by (rewrite Z.shiftl_mul_pow2 by lia; change (2 ^ 8) with 256; lia);
         rewrite Z.shiftl_spec_low by lia; reflexivity
        |rewrite (Z.bits_above_log2 c n); [apply andb_false_r|lia|]]).
    all: destruct (Z.eq_dec c 0) as [->|]; [simpl; lia|]; apply Z.lt_le_trans with 8; [|lia]; apply Z.log2_lt_pow2; [lia|]; change (2 ^ 8) with 256; lia.
  - rewrite Zplus_mod, E, (Z.mod_small c) by lia. apply (Z.mod_unique _ _ 0); [left|]; lia.
Qed.

Lemma packed_app v t : fold_left (fun v c => v * 256 + c) t v = v * 256 ^ Z.of_nat (length t) + packed t.
Proof.
  unfold packed. revert v. induction t as [|c t IH]; intros v; [simpl; lia|].
  cbn [fold_left length]. rewrite IH, (IH (0 * 256 + c)), Nat2Z.inj_succ, Z.pow_succ_r by lia. lia.
Qed.

Lemma packed_range t : bytes t -> 0 <= packed t < 256 ^ Z.of_nat (length t).
Proof.
  induction 1 as [|c t B _ IH]; [unfold packed; simpl; lia|]. unfold packed. cbn [fold_left length].
  rewrite packed_app, Nat2Z.inj_succ, Z.pow_succ_r by lia. unfold is_byte in B. nia.
Qed.

Lemma read_type_inside b t : inside 39 b t -> forall rest v k, nul_free b -> bytes b ->
  read_type_loop (b ++ rest) false (u32 v) k =
  read_type_loop rest false (u32 (v * 256 ^ Z.of_nat (length t) + packed t)) (k + length b).
Proof.
  assert (Step : forall v c, is_byte c -> Z.lor (u32 (Z.shiftl (u32 v) 8)) c = u32 (v * 256 + c)).
  { intros v c B. rewrite pack_step by trivial. unfold u32. rewrite Zplus_mod, Zmult_mod_idemp_l, <- Zplus_mod. reflexivity. }
  assert (Val : forall v c t, (v * 256 + c) * 256 ^ Z.of_nat (length t) + packed t = v * 256 ^ Z.of_nat (length (c :: t)) + packed (c :: t)).
  { intros v c u. unfold packed at 2. cbn [fold_left length]. rewrite packed_app, Nat2Z.inj_succ, Z.pow_succ_r by lia. lia. }
  induction 1 as [|c b t N1 N2 I IH|c b t I IH]; intros rest v k NF B.
  - cbn [length app]. change (256 ^ Z.of_nat 0) with 1. change (packed []) with 0. rewrite Nat.add_0_r.
    replace (v * 1 + 0) with v by lia. reflexivity.
  - inversion_clear NF. inversion_clear B. cbn [app read_type_loop].
    destruct (Z.eqb_spec c 0); [contradiction|]. destruct (Z.eqb_spec c 92); [contradiction|].
    destruct (Z.eqb_spec c 39); [contradiction|]. cbn [negb orb andb]. rewrite Step by trivial. rewrite IH by trivial.
    rewrite Val. f_equal. cbn [length]. lia.
  - inversion_clear NF. inversion_clear H0. inversion_clear B. inversion_clear H3. cbn [app read_type_loop].
    change (92 =? 0) with false. change (negb (92 =? 92) || false) with false. cbv iota.
    destruct (Z.eqb_spec c 0); [contradiction|]. rewrite orb_true_r, andb_false_r. rewrite Step by trivial.
    rewrite IH by trivial. rewrite Val. f_equal. cbn [length]. lia.
Qed.

(** ** Paths *)

Lemma get_text_length_ok s : forall p, holds p s -> get_text_length p = Ret (length s).
Proof.
  induction s as [|c s IH]; intros p H.
  - destruct (holds_nil _ H) as (r & ->). reflexivity.
  - destruct (holds_cons _ _ _ H) as (p' & -> & N & H'). simpl. destruct (Z.eqb_spec c 0); [contradiction|]. rewrite (IH p' H'). reflexivity.
Qed.

Lemma rd_mid (a : list Z) c b r : rd ((a ++ c :: b) ++ r) (length a) = Ret c.
Proof. unfold rd. rewrite <- app_assoc, nth_error_app2, Nat.sub_diag by lia. reflexivity. Qed.

Lemma resource_loop_ok n : forall a b r, length a = n -> Forall (fun c => c <> 46 /\ c <> 47) b ->
  exists t, resource_loop ((a ++ b) ++ 0 :: r) (length (a ++ b)) n = Ret (length t) /\ name_part (a ++ b) t.
Proof.
  induction n as [|n IH]; intros a b r L F.
  - destruct a; [|discriminate]. exists b. split; [reflexivity|]. apply (np_none [] b); auto.
  - destruct a as [|c a _] using rev_ind; [discriminate|]. rewrite app_length in L. simpl in L.
    assert (length a = n) by lia. replace ((a ++ [c]) ++ b) with (a ++ c :: b) by (rewrite <- app_assoc; reflexivity).
    cbn [resource_loop]. assert (R : rd ((a ++ c :: b) ++ 0 :: r) n = Ret c) by (subst n; apply rd_mid).
    rewrite R. cbn [bind]. destruct (Z.eqb_spec c 46) as [->|N1].
    + exists a. rewrite H. split; [reflexivity|]. constructor. trivial.
    + destruct (Z.eqb_spec c 47) as [->|N2].
      * exists (a ++ 47 :: b). split; [reflexivity|]. change (a ++ 47 :: b) with (a ++ [47] ++ b). rewrite app_assoc.
        apply np_none; eauto.
      * apply (IH a (c :: b) r H). constructor; auto.
Qed.

Lemma directory_loop_ok fuel : forall a b r, nul_free (a ++ b) -> (a = [] \/ exists d, a = d ++ [47]) -> (length b < fuel)%nat ->
  exists t, directory_loop fuel ((a ++ b) ++ 0 :: r) (Z.of_nat (length a)) = Ret (Z.of_nat (length t)) /\ directory_part (a ++ b) t.
Proof.
  induction fuel as [|fuel IH]; intros a b r NF Ha L; [lia|].
  cbn [directory_loop]. rewrite Nat2Z.id, <- app_assoc, skipn_app, skipn_all, Nat.sub_diag. cbn [app skipn].
  apply Forall_app in NF. destruct NF as [Na Nb].
  destruct (find_char_ok b (b ++ 0 :: r) 47 0) as (x & -> & F); [split; [trivial|eauto]|].
  rewrite shift_0. cbn [bind]. destruct F as [[-> N]|(n & -> & E & N)].
  - exists a. split; [reflexivity|]. constructor; trivial. apply Forall_forall. intros c I. apply In_nth_error in I.
    destruct I as (j & I). intros ->. destruct (N j I).
  - destruct (Z.eqb_spec (Z.of_nat n) (-1)); [lia|].
    apply nth_error_split in E. destruct E as (b1 & b2 & -> & Lb).
    replace (Z.of_nat (length a) + (Z.of_nat n + 1)) with (Z.of_nat (length (a ++ b1 ++ [47]))) by (rewrite !app_length; simpl; lia).
    destruct (IH (a ++ b1 ++ [47]) b2 r) as (t & Et & D).
    + apply Forall_app in Nb. destruct Nb as [Nb1 Nb2]. inversion_clear Nb2.
      repeat (apply Forall_app; split; trivial). repeat constructor. lia.
    + right. exists (a ++ b1). rewrite app_assoc. reflexivity.
    + rewrite app_length in L. simpl in L. lia.
    + exists t. replace (a ++ b1 ++ 47 :: b2) with ((a ++ b1 ++ [47]) ++ b2) by (rewrite <- !app_assoc; reflexivity).
      split; trivial. rewrite <- Et. f_equal. rewrite <- !app_assoc. reflexivity.
Qed.
