(** * Specification of finite maps with string keys: association lists.
    Independent of the tree model. *)

From Verif Require Import Base.

(** Equality of keys. *)
Fixpoint key_eqb (a b : list Z) : bool :=
  match a, b with
  | [], [] => true
  | x :: a', y :: b' => (x =? y) && key_eqb a' b'
  | _, _ => false
  end.

Lemma key_eqb_spec a b : reflect (a = b) (key_eqb a b).
Proof.
  revert b. induction a as [|x a IH]; destruct b as [|y b]; simpl; try (constructor; congruence).
  destruct (Z.eqb_spec x y); simpl; [|constructor; congruence].
  destruct (IH b); constructor; congruence.
Qed.

Lemma key_eqb_refl a : key_eqb a a = true.
Proof. destruct (key_eqb_spec a a); congruence. Qed.

(** First binding of a key in a list of pairs. *)
Fixpoint assoc {A} (k : list Z) (l : list (list Z * A)) : option A :=
  match l with
  | [] => None
  | (k', v) :: l' => if key_eqb k k' then Some v else assoc k l'
  end.

(** Bytewise lexicographic order on strings (a proper prefix is smaller). *)
Inductive lex_lt : list Z -> list Z -> Prop :=
| lex_nil y b : lex_lt [] (y :: b)
| lex_head x y a b : x < y -> lex_lt (x :: a) (y :: b)
| lex_tail x a b : lex_lt a b -> lex_lt (x :: a) (x :: b).

(** Strictly increasing list of keys. *)
Fixpoint increasing (l : list (list Z)) : Prop :=
  match l with
  | [] => True
  | k :: l' => Forall (lex_lt k) l' /\ increasing l'
  end.

(** Text that a C string can hold: no NUL, no negative char value. *)
Definition good_key (k : list Z) : Prop := Forall (fun c => 0 < c) k.

Lemma assoc_app {A} k (l1 l2 : list (list Z * A)) :
  assoc k (l1 ++ l2) = match assoc k l1 with Some v => Some v | None => assoc k l2 end.
Proof.
  induction l1 as [|[k' v] l1 IH]; simpl; [reflexivity|].
  destruct (key_eqb k k'); auto.
Qed.

Lemma assoc_none {A} k (l : list (list Z * A)) : ~ In k (map fst l) -> assoc k l = None.
Proof.
  induction l as [|[k' v] l IH]; simpl; intros H; [reflexivity|].
  destruct (key_eqb_spec k k'); [subst; tauto|]. apply IH. tauto.
Qed.

Lemma assoc_in {A} k v (l : list (list Z * A)) : assoc k l = Some v -> In (k, v) l.
Proof.
  induction l as [|[k' v'] l IH]; simpl; intros H; [discriminate|].
  destruct (key_eqb_spec k k'); [injection H as ->; subst; auto|]. auto.
Qed.

Lemma assoc_some_in {A} k (l : list (list Z * A)) : In k (map fst l) -> exists v, assoc k l = Some v.
Proof.
  induction l as [|[k' v'] l IH]; simpl; intros H; [tauto|].
  destruct (key_eqb_spec k k'); [eauto|]. apply IH. destruct H; congruence.
Qed.

Lemma lex_irrefl a : ~ lex_lt a a.
Proof. induction a; intros H; inversion H; subst; auto; lia. Qed.

Lemma lex_trans a b c : lex_lt a b -> lex_lt b c -> lex_lt a c.
Proof.
  intros H; revert c; induction H; intros c Hc; inversion Hc; subst;
    try (constructor; lia); try (constructor; auto; fail); try constructor.
Qed.

Lemma lex_total a b : lex_lt a b \/ a = b \/ lex_lt b a.
Proof.
  revert b; induction a as [|x a IH]; destruct b as [|y b]; auto using lex_lt.
  destruct (Z.lt_trichotomy x y) as [H|[H|H]]; auto using lex_lt.
  subst. destruct (IH b) as [H|[H|H]]; subst; auto using lex_lt.
Qed.

Lemma increasing_app l1 l2 :
  increasing (l1 ++ l2) <->
  increasing l1 /\ increasing l2 /\ (forall a b, In a l1 -> In b l2 -> lex_lt a b).
Proof.
  induction l1 as [|k l1 IH]; simpl.
  - split; [intros H; repeat split; auto; tauto|tauto].
  - rewrite IH, Forall_app. clear IH. split.
    + intros [[H1 H2] [H3 [H4 H5]]]. repeat split; auto.
      intros a b [->|Ha] Hb; auto. rewrite Forall_forall in H2. auto.
    + intros [[H1 H2] [H3 H4]]. repeat split; auto.
      rewrite Forall_forall. auto.
Qed.

Lemma increasing_nodup l : increasing l -> NoDup l.
Proof.
  induction l as [|k l IH]; simpl; [constructor|].
  intros [H1 H2]. constructor; auto.
  intros Hin. rewrite Forall_forall in H1. apply (lex_irrefl k). auto.
Qed.
