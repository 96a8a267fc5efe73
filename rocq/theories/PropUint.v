(** * Properties of strings made from unsigned integers: C107. *)

From Verif Require Import Base SpecNum StringModel SpecText StringProofs DynModel DynProofs UintModel Str.

(** ** C107: texts of unsigned integers.

    Full statement: constructing from, assigning, appending or adding an unsigned integer gives
    the decimal numeral of that integer. [uint_texts n v] and [uint64_texts n v]: the functions of
    both string classes, called with n, give the numeral of v. The full statement is
    [uint_texts n n] and [uint64_texts n n] for all n of the type. *)
Definition fixed_gives (len : nat) (f : list Z -> out (list Z)) (s : list Z) (v : Z) : Prop :=
  forall b, length b = S len -> holds b s ->
    exists b' t, f b = Ret b' /\ length b' = S len /\ numeral v t /\ holds b' (firstn len (s ++ t)).
Definition object_gives (o : out dyn) (s : list Z) (v : Z) : Prop :=
  exists d t, o = Ret d /\ numeral v t /\ exact d (s ++ t).
Definition memory (g : Z -> list Z) : Prop := forall n, 0 <= n -> Z.of_nat (length (g n)) = n.

Definition uint_texts (n v : Z) : Prop :=
  (forall len s, fixed_gives len (fun b => fix_append_uint len b n) s v) /\
  (forall len b, length b = S len -> exists b' t, fix_assign_uint len b n = Ret b' /\ length b' = S len /\ numeral v t /\ holds b' (firstn len t)) /\
  object_gives (new_uint n) [] v /\
  (forall g, memory g -> (forall p, In 0 p -> object_gives (new_concat_uint g n p) (cstr p) v) /\
    (forall d s, exact d s -> object_gives (dyn_uint g d n) [] v /\ object_gives (dyn_append_uint g d n) s v)).
Definition uint64_texts (n v : Z) : Prop :=
  (forall len s, fixed_gives len (fun b => fix_append_uint64 len b n) s v) /\
  (forall g, memory g -> forall d s, exact d s -> object_gives (dyn_append_uint64 g d n) s v).

Definition zeros (n : Z) : list Z := repeat 0 (Z.to_nat n).
Lemma zeros_memory : memory zeros.
Proof. intros n H. unfold zeros. rewrite repeat_length. lia. Qed.
Lemma i32_u n : 0 <= n < 2 ^ 32 -> i32 n = if n <? 2 ^ 31 then n else n - 2 ^ 32.
Proof.
  intros H. unfold i32. destruct (Z.ltb_spec n (2 ^ 31)); [rewrite Z.mod_small; lia|].
  replace (n + 2 ^ 31) with (n - 2 ^ 31 + 1 * 2 ^ 32) by lia. rewrite Z.mod_add, Z.mod_small; lia.
Qed.
Lemma i64_u n : 0 <= n < 2 ^ 64 -> i64 n = if n <? 2 ^ 63 then n else n - 2 ^ 64.
Proof.
  intros H. unfold i64. destruct (Z.ltb_spec n (2 ^ 63)); [rewrite Z.mod_small; lia|].
  replace (n + 2 ^ 63) with (n - 2 ^ 63 + 1 * 2 ^ 64) by lia. rewrite Z.mod_add, Z.mod_small; lia.
Qed.

Lemma uint_texts_i32 n : - 2 ^ 31 < i32 n < 2 ^ 31 -> uint_texts n (i32 n).
Proof.
  unfold uint_texts, fix_append_uint, fix_assign_uint, new_uint, new_concat_uint, dyn_uint, dyn_append_uint. generalize (i32 n). clear n. intros n H. split; [|split; [|split; [|intros g Hg; split]]].
  - intros len s b L Hh. destruct (fix_step_ok len (OpAppendInt n) b s L H (or_intror Hh)) as (b' & s' & E & L' & M & Hh').
    inversion M as [| | | | | |? t ? Ht| |]; subst. cbn [fix_step] in E. exists b', t.  repeat (split; [assumption|]). assumption.
  - intros len b L. destruct (fix_step_ok len (OpInt n) b [] L H (or_introl I)) as (b' & s' & E & L' & M & Hh').
    inversion M as [| |? t ? Ht| | | | | |]; subst. cbn [fix_step] in E. exists b', s'.  repeat (split; [assumption|]). assumption.
  - destruct (new_int_ok zeros zeros_memory n H) as (d & t & E & Ht & He). exists d, t.  cbn [app]. repeat (split; [assumption|]). assumption.
  - intros p Hp. destruct (integer_to_string_ok n H) as (t & Ht & L & Ei).
    destruct (new_concat_number_ok g Hg integer_to_string n t p Hp Ht ltac:(lia) Ei) as (d & E & He). exists d, t. unfold new_concat_int. repeat (split; [assumption|]). assumption.
  - intros d s He. pose proof (exact_sound _ _ He) as Hs. split.
    + destruct (dyn_op_ok g Hg d (OpInt n) Hs H) as (d' & E & _ & Hm). destruct (Hm s He I) as (s' & M & He').
      inversion M as [| |? t ? Ht| | | | | |]; subst. cbn [dyn_op] in E. exists d', s'.  repeat (split; [assumption|]). assumption.
    + destruct (dyn_op_ok g Hg d (OpAppendInt n) Hs H) as (d' & E & _ & Hm). destruct (Hm s He I) as (s' & M & He').
      inversion M as [| | | | | |? t ? Ht| |]; subst. cbn [dyn_op] in E. exists d', t.  repeat (split; [assumption|]). assumption.
Qed.
Lemma uint64_texts_i64 n : - 2 ^ 63 < i64 n < 2 ^ 63 -> uint64_texts n (i64 n).
Proof.
  unfold uint64_texts, fix_append_uint64, dyn_append_uint64. generalize (i64 n). clear n. intros n H. split.
  - intros len s b L Hh. destruct (fix_step_ok len (OpAppendInt64 n) b s L H (or_intror Hh)) as (b' & s' & E & L' & M & Hh').
    inversion M as [| | | | | | |? t ? Ht|]; subst. cbn [fix_step] in E. exists b', t.  repeat (split; [assumption|]). assumption.
  - intros g Hg d s He. pose proof (exact_sound _ _ He) as Hs.
    destruct (dyn_op_ok g Hg d (OpAppendInt64 n) Hs H) as (d' & E & _ & Hm). destruct (Hm s He I) as (s' & M & He').
    inversion M as [| | | | | | |? t ? Ht|]; subst. cbn [dyn_op] in E. exists d', t.  repeat (split; [assumption|]). assumption.
Qed.

(** What holds: integers that the signed type can represent. *)
Theorem C107_partial : (forall n, 0 <= n < 2 ^ 31 -> uint_texts n n) /\ (forall n, 0 <= n < 2 ^ 63 -> uint64_texts n n).
Proof.
  split; intros n H.
  - assert (E : i32 n = n) by (rewrite i32_u by lia; destruct (Z.ltb_spec n (2 ^ 31)); lia). rewrite <- E at 2. apply uint_texts_i32. lia.
  - assert (E : i64 n = n) by (rewrite i64_u by lia; destruct (Z.ltb_spec n (2 ^ 63)); lia). rewrite <- E at 2. apply uint64_texts_i64. lia.
Qed.
Print Assumptions C107_partial.

(** Larger ones appear as negative numbers, smaller by 2^32 or 2^64. *)
Theorem C107_negative : (forall n, 2 ^ 31 < n < 2 ^ 32 -> uint_texts n (n - 2 ^ 32)) /\ (forall n, 2 ^ 63 < n < 2 ^ 64 -> uint64_texts n (n - 2 ^ 64)).
Proof.
  split; intros n H.
  - assert (E : i32 n = n - 2 ^ 32) by (rewrite i32_u by lia; destruct (Z.ltb_spec n (2 ^ 31)); lia). rewrite <- E. apply uint_texts_i32. lia.
  - assert (E : i64 n = n - 2 ^ 64) by (rewrite i64_u by lia; destruct (Z.ltb_spec n (2 ^ 63)); lia). rewrite <- E. apply uint64_texts_i64. lia.
Qed.
Print Assumptions C107_negative.

(** So the full statement is false for every large integer, not only for one. *)
Lemma numeral_value t : forall v w, numeral v t -> numeral w t -> v = w.
Proof.
  intros v w H1 H2. destruct H1; inversion H2; subst; try reflexivity; try congruence; exfalso;
    match goal with H : digits (45 :: _) |- _ => inversion H as [|? ? D _]; unfold digit in D; lia | _ => idtac end.
Qed.

Lemma object_value o s v w : object_gives o s v -> object_gives o s w -> v = w.
Proof.
  intros (d & t & E & Ht & (_ & Hx & _)) (d' & t' & E' & Ht' & (_ & Hx' & _)). assert (Q : d' = d) by congruence. subst d'.
  apply holds_nul in Hx. apply holds_nul in Hx'. assert (Q : t' = t) by (destruct Hx as [_ Hx]; destruct Hx' as [_ Hx']; rewrite Hx in Hx'; now apply app_inv_head in Hx').
  subst t'. eapply numeral_value; eauto.
Qed.

Definition empty : dyn := Dyn 1 16 None (0 :: repeat 48 14 ++ [0]).
Lemma empty_exact : exact empty [].
Proof. split; [repeat split; discriminate|]. split; [|reflexivity]. split; [constructor|]. now exists (repeat 48 14 ++ [0]). Qed.

Theorem C107_refuted : (forall n, 2 ^ 31 < n < 2 ^ 32 -> ~ uint_texts n n) /\ (forall n, 2 ^ 63 < n < 2 ^ 64 -> ~ uint64_texts n n).
Proof.
  split; intros n H X.
  - destruct (proj1 C107_negative n H) as (_ & _ & A & _). destruct X as (_ & _ & B & _). pose proof (object_value _ _ _ _ A B). lia.
  - destruct (proj2 C107_negative n H) as (_ & A). destruct X as (_ & B).
    pose proof (object_value _ _ _ _ (A zeros zeros_memory empty [] empty_exact) (B zeros zeros_memory empty [] empty_exact)). lia.
Qed.
Print Assumptions C107_refuted.

(** The integers in the middle, 2^31 and 2^63, give the text "-0", no numeral. *)
Lemma minus_zero v : ~ numeral v (`"-0").
Proof.
  intros H. inversion H as [|d ds D N|d ds D N]; subst; [inversion D as [|? ? Q _]; subst; unfold digit in Q; lia|congruence].
Qed.

Theorem C107_middle_refuted : (forall v, ~ uint_texts (2 ^ 31) v) /\ (forall v, ~ uint64_texts (2 ^ 63) v).
Proof.
  split; intros v X.
  - destruct X as (_ & _ & (d & t & E & Ht & (_ & Hx & _)) & _). vm_compute in E. injection E as <-. apply holds_nul in Hx. destruct Hx as [_ Hx].
    vm_compute in Hx. rewrite <- Hx in Ht. exact (minus_zero v Ht).
  - destruct X as (_ & X). destruct (X zeros zeros_memory empty [] empty_exact) as (d & t & E & Ht & (_ & Hx & _)).
    vm_compute in E. injection E as <-. apply holds_nul in Hx. destruct Hx as [_ Hx]. vm_compute in Hx. rewrite <- Hx in Ht. exact (minus_zero v Ht).
Qed.
Print Assumptions C107_middle_refuted.

Example C107_instance : uint_texts 42 42 /\ uint_texts 3000000000 (-1294967296) /\ uint64_texts 18446744073709551615 (-1) /\
  exists b, fix_append_uint 15 (`"n=" ++ 0 :: repeat 7 13) 3000000000 = Ret b /\ holds b (`"n=-1294967296").
Proof.
  split; [apply (proj1 C107_partial 42); lia|].
  split; [replace (-1294967296) with (3000000000 - 2 ^ 32) by reflexivity; apply (proj1 C107_negative); lia|].
  split; [replace (-1) with (18446744073709551615 - 2 ^ 64) by reflexivity; apply (proj2 C107_negative); lia|].
  eexists. split; [vm_compute; reflexivity|]. split; [repeat constructor; discriminate|]. now exists [7; 7].
Qed.
