(** * Proofs about the text comparison functions. *)

From Verif Require Import Base TextModel SpecMap MapProofs.

#[local] Arguments Z.eqb : simpl nomatch.
#[local] Arguments Z.ltb : simpl nomatch.

Lemma compare_text_ok a : forall b ra rb, good_key a -> good_key b ->
  compare_text (a ++ 0 :: ra) (b ++ 0 :: rb) = Ret (key_eqb a b).
Proof.
  induction a as [|x a IH]; intros [|y b] ra rb Ha Hb; simpl; auto.
  - inversion Hb; subst. replace (0 =? y) with false by lia. reflexivity.
  - inversion Ha; subst. replace (x =? 0) with false by lia. reflexivity.
  - inversion Ha; inversion Hb; subst. destruct (Z.eqb_spec x y); simpl; [|reflexivity].
    replace (x =? 0) with false by lia. apply IH; auto.
Qed.

Lemma less_than_ok a : forall b ra rb, good_key a -> good_key b ->
  compare_text_less_than (a ++ 0 :: ra) (b ++ 0 :: rb) = Ret (text_lt a b).
Proof.
  induction a as [|x a IH]; intros [|y b] ra rb Ha Hb; simpl; auto.
  - inversion Hb; subst. destruct (Z.eqb_spec 0 y); [lia|]. reflexivity.
  - inversion Ha; subst. destruct (Z.eqb_spec x 0); [lia|]. reflexivity.
  - inversion Ha; inversion Hb; subst. destruct (negb (x =? y) || (x =? 0)); auto.
Qed.

Lemma less_equal_ok a : forall b ra rb, good_key a -> good_key b ->
  compare_text_less_equal (a ++ 0 :: ra) (b ++ 0 :: rb) = Ret (key_eqb a b || text_lt a b).
Proof.
  induction a as [|x a IH]; intros [|y b] ra rb Ha Hb; simpl; auto.
  - inversion Hb; subst. destruct (Z.eqb_spec 0 y); [lia|]. simpl. f_equal. lia.
  - inversion Ha; subst. destruct (Z.eqb_spec x 0); [lia|]. simpl. f_equal. lia.
  - inversion Ha; inversion Hb; subst. destruct (Z.eqb_spec x y).
    + subst. simpl. replace (y =? 0) with false by lia. apply IH; auto.
    + simpl. f_equal. lia.
Qed.

Lemma text_lt_bool a b : good_key a -> good_key b -> reflect (lex_lt a b) (text_lt a b).
Proof.
  intros Ha Hb. pose proof (text_lt_lex a b Ha Hb). destruct (text_lt a b); constructor; intuition congruence.
Qed.
