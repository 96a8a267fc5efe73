(** * Base: outcomes, bytes, pointers.

    Nothing here models repository code; these are the notions in which the
    models are written. *)

From Coq Require Export List ZArith Lia Bool Arith.
From Coq Require Export ZifyBool ZifyNat.
Export ListNotations.
#[global] Open Scope Z_scope.

(** Outcome of a run of C++ code.
    [UB]: an access outside an object, or a null dereference.
    [OutOfFuel]: the loop did not finish within the given number of rounds. *)
Inductive out (A : Type) : Type :=
| Ret (a : A)
| UB
| OutOfFuel.
Arguments Ret {A} a.
Arguments UB {A}.
Arguments OutOfFuel {A}.

Definition bind {A B} (x : out A) (f : A -> out B) : out B :=
  match x with
  | Ret a => f a
  | UB => UB
  | OutOfFuel => OutOfFuel
  end.

Declare Scope out_scope.
Notation "'let!' x ':=' e 'in' f" := (bind e (fun x => f))
  (at level 200, x pattern, e at level 100, f at level 200, right associativity) : out_scope.
#[global] Open Scope out_scope.

(** A byte is a [Z] in [0,255]. *)
Definition is_byte (c : Z) : Prop := 0 <= c < 256.
Definition bytes (s : list Z) : Prop := Forall is_byte s.

(** A [const char*] into an array is the list of the bytes from the pointer to
    the end of the array. *)
Definition ptr := list Z.

(** [p[i]] *)
Definition rd (p : ptr) (i : nat) : out Z :=
  match nth_error p i with
  | Some c => Ret c
  | None => UB
  end.

(** The array ends in NUL: there is a NUL at or after the pointer. *)
Definition terminated (p : ptr) : Prop := exists q, p = q ++ [0].

(** The bytes of a C string (up to the first NUL) starting at a pointer. *)
Fixpoint cstr (p : ptr) : list Z :=
  match p with
  | [] => []
  | c :: p' => if c =? 0 then [] else c :: cstr p'
  end.

Definition nul_free (s : list Z) : Prop := Forall (fun c => c <> 0) s.

(** Writable storage: [wr b i c] is [b[i] = c]. *)
Fixpoint wr (b : list Z) (i : nat) (c : Z) : out (list Z) :=
  match b, i with
  | [], _ => UB
  | _ :: b', O => Ret (c :: b')
  | x :: b', S i' => let! r := wr b' i' c in Ret (x :: r)
  end.

(** Consecutive writes [b[i] = s[0]; b[i+1] = s[1]; ...]. *)
Fixpoint wrs (b : list Z) (i : nat) (s : list Z) : out (list Z) :=
  match s with
  | [] => Ret b
  | c :: s' => let! b' := wr b i c in wrs b' (S i) s'
  end.

(** ** Generic lemmas *)

Lemma bind_ret_inv {A B} (x : out A) (f : A -> out B) b :
  bind x f = Ret b -> exists a, x = Ret a /\ f a = Ret b.
Proof. destruct x; simpl; intros H; try discriminate. eauto. Qed.

Lemma terminated_cons c p : p <> [] -> terminated (c :: p) -> terminated p.
Proof.
  intros Hne [q Hq]. destruct q as [|x q].
  - simpl in Hq. injection Hq as -> ->. congruence.
  - injection Hq as -> ->. now exists q.
Qed.

Lemma terminated_nonnil p : terminated p -> p <> [].
Proof. intros [q ->]. destruct q; discriminate. Qed.

Lemma terminated_tail c p : c <> 0 -> terminated (c :: p) -> terminated p.
Proof.
  intros Hc [q Hq]. destruct q as [|x q].
  - simpl in Hq. injection Hq as -> ->. congruence.
  - injection Hq as -> ->. now exists q.
Qed.

Lemma terminated_app s p : terminated p -> terminated (s ++ p).
Proof. intros [q ->]. exists (s ++ q). now rewrite app_assoc. Qed.

Lemma wr_app b1 x b2 c : wr (b1 ++ x :: b2) (length b1) c = Ret (b1 ++ c :: b2).
Proof. induction b1 as [|y b1 IH]; simpl; [reflexivity|]. now rewrite IH. Qed.

Lemma wrs_app b1 s : forall bs b2, length bs = length s ->
  wrs (b1 ++ bs ++ b2) (length b1) s = Ret (b1 ++ s ++ b2).
Proof.
  revert b1. induction s as [|c s IH]; intros b1 bs b2 Hl.
  - destruct bs; [reflexivity|discriminate].
  - destruct bs as [|x bs]; [discriminate|]. simpl.
    rewrite wr_app. simpl.
    replace (b1 ++ c :: bs ++ b2) with ((b1 ++ [c]) ++ bs ++ b2)
      by now rewrite <- app_assoc.
    replace (S (length b1)) with (length (b1 ++ [c]))
      by (rewrite app_length; simpl; lia).
    rewrite IH by (simpl in Hl; lia).
    now rewrite <- app_assoc.
Qed.

#[global] Arguments Z.add : simpl never.
#[global] Arguments Z.sub : simpl never.
#[global] Arguments Z.mul : simpl never.
#[global] Arguments Z.max : simpl never.
#[global] Arguments Z.min : simpl never.
#[global] Arguments Z.opp : simpl never.
#[global] Arguments Z.pow : simpl never.
#[global] Arguments Z.div : simpl never.
#[global] Arguments Z.modulo : simpl never.
#[global] Arguments Z.of_nat : simpl never.
#[global] Arguments Z.to_nat : simpl never.
#[global] Arguments Z.leb : simpl nomatch.
