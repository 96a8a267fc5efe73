(** * Properties of dynamic strings: C37. *)

From Verif Require Import Base StringModel SpecText StringProofs DynModel DynProofs Str.

(** ** C37: dynamic strings.

    Programs that only use existing objects and operands in range. *)
Definition legal_cmd (n : nat) (c : cmd) : Prop :=
  match c with
  | NewEmpty => True
  | NewText p => In 0 p
  | NewPart p k => In 0 p /\ 0 <= k
  | NewInt k => - 2 ^ 31 < k < 2 ^ 31
  | NewInt64 k => - 2 ^ 63 < k < 2 ^ 63
  | NewCopy j | NewMove j => (j < n)%nat
  | NewConcat j p => (j < n)%nat /\ In 0 p
  | NewConcatInt j k => (j < n)%nat /\ - 2 ^ 31 < k < 2 ^ 31
  | NewConcatInt64 j k => (j < n)%nat /\ - 2 ^ 63 < k < 2 ^ 63
  | Do i o => (i < n)%nat /\ operand_ok o
  | Assign i j | Append i j | Move i j => (i < n)%nat /\ (j < n)%nat
  | Length i _ | Purge i | Lower i | Upper i | Replace i _ _ | Escape i => (i < n)%nat
  end.

Fixpoint legal_program (n : nat) (cs : list cmd) : Prop :=
  match cs with [] => True | c :: cs' => legal_cmd n c /\ legal_program (objects n c) cs' end.

(** Full statement: every legal program runs without writing outside any storage,
    whatever new memory contains ([allocates g]: new blocks have the requested size
    and arbitrary contents), and afterwards each storage holds the object's text.

    It fails: SetStringLength moves a text to the 16 local bytes and keeps the old
    physical size; the next append writes beyond them. *)
Theorem C37_refuted : exists g cs, allocates g /\ legal_program 0 cs /\ dyn_run g 0 cs [] = UB.
Proof.
  exists (fun _ n => repeat 1 (Z.to_nat n)),
    [NewText (buf "0123456789012345678901234567890123456789"); Length 0 5; Do 0 (OpAppend (buf "abcdefghijkl"))].
  split; [intros k n Hn; rewrite repeat_length; lia|]. split; [|vm_compute; reflexivity].
  cbn [legal_program legal_cmd objects operand_ok]. repeat split; try lia; vm_compute; tauto.
Qed.
Print Assumptions C37_refuted.

(** Appending a string to itself runs out of the storage. *)
Theorem C37_self_append_refuted : exists g cs, allocates g /\ legal_program 0 cs /\
  cs = [NewText (buf "ab"); Append 0 0] /\ dyn_run g 0 cs [] = UB.
Proof.
  exists (fun _ n => repeat 1 (Z.to_nat n)), [NewText (buf "ab"); Append 0 0].
  split; [intros k n Hn; rewrite repeat_length; lia|]. split; [|split; [reflexivity|vm_compute; reflexivity]].
  cbn [legal_program legal_cmd objects]. repeat split; try lia; vm_compute; tauto.
Qed.
Print Assumptions C37_self_append_refuted.

(** Assigning a copied short string to itself destroys its text. *)
Theorem C37_self_assign_refuted : exists g cs, allocates g /\ legal_program 0 cs /\
  cs = [NewText (buf "ab"); NewCopy 0; Assign 1 1] /\
  exists d0 d1, dyn_run g 0 cs [] = Ret [d0; d1] /\ ~ exact d1 (`"ab") /\ holds (chars d1) (`"000000000000000").
Proof.
  exists (fun _ n => repeat 1 (Z.to_nat n)), [NewText (buf "ab"); NewCopy 0; Assign 1 1].
  split; [intros k n Hn; rewrite repeat_length; lia|]. split; [|split; [reflexivity|]].
  - cbn [legal_program legal_cmd objects]. repeat split; try lia; vm_compute; tauto.
  - do 2 eexists. split; [vm_compute; reflexivity|]. split.
    + intros (_ & Hh & _). apply holds_nul in Hh as [_ Hc]. vm_compute in Hc. discriminate.
    + split; [unfold nul_free; repeat constructor; discriminate|]. exists []. reflexivity.
Qed.
Print Assumptions C37_self_assign_refuted.

(** EncodeEscapeSequences records a size that lacks the terminator; copying a text
    of sixteen encoded characters then writes seventeen bytes into sixteen. *)
Theorem C37_escape_refuted : exists g cs, allocates g /\ legal_program 0 cs /\
  cs = [NewText (repeat 9 8 ++ [0]); NewEmpty; Escape 0; Assign 1 0] /\ dyn_run g 0 cs [] = UB.
Proof.
  exists (fun _ n => repeat 1 (Z.to_nat n)), [NewText (repeat 9 8 ++ [0]); NewEmpty; Escape 0; Assign 1 0].
  split; [intros k n Hn; rewrite repeat_length; lia|]. split; [|split; [reflexivity|vm_compute; reflexivity]].
  cbn [legal_program legal_cmd objects]. repeat split; try lia; vm_compute; tauto.
Qed.
Print Assumptions C37_escape_refuted.

(** What holds, first part: programs without EncodeEscapeSequences, without
    SetStringLength to 1..15 and without assigning or appending an object to itself
    never write outside a storage, and each storage has the recorded size and
    contains a terminator within the recorded length. *)
Theorem C37_memory_partial g cs : allocates g -> safe_program 0 cs ->
  exists S, dyn_run g 0 cs [] = Ret S /\ Forall sound S.
Proof. intros Hg Hc. apply safe_run_ok; auto. Qed.
Print Assumptions C37_memory_partial.

(** Second part: if moreover SetStringLength does not lengthen, AppendString gets
    no more than the length of its text and ReplaceChar does not insert NUL, the
    objects hold exactly the texts of the ordinary meaning of the program, with the
    right recorded lengths. *)
Theorem C37_texts_partial g cs : allocates g -> plain_program [] cs ->
  exists S T, dyn_run g 0 cs [] = Ret S /\ effects cs [] T /\ Forall2 exact S T.
Proof. intros Hg Hc. apply plain_run_ok; auto. Qed.
Print Assumptions C37_texts_partial.

(** The restrictions only concern the named commands. *)
Theorem C37_safe_legal n c : safe_cmd n c <-> legal_cmd n c /\
  match c with
  | Escape _ => False
  | Length _ k => k <= 0 \/ 16 <= k
  | Assign i j | Append i j => i <> j
  | _ => True
  end.
Proof. destruct c; cbn [safe_cmd legal_cmd]; tauto. Qed.
Print Assumptions C37_safe_legal.

Example C37_instance g : allocates g -> exists d, dyn_run g 0 [NewText (buf "The quick brown fox"); Do 0 (OpAppendChar 33); Upper 0; Length 0 16] [] = Ret [d] /\
  exact d (`"THE QUICK BROWN ").
Proof.
  intros Hg. destruct (C37_texts_partial g [NewText (buf "The quick brown fox"); Do 0 (OpAppendChar 33); Upper 0; Length 0 16] Hg) as (S & T & E & He & Hx).
  - split; [split; [vm_compute; tauto|exact I]|]. intros S1 H1. inversion H1; subst; clear H1.
    split; [split; [split; [simpl; lia|discriminate]|exact I]|]. intros S2 H2.
    inversion H2 as [| | | | | | | | | |? ? ? ? ? Hn Hm| | | | | | | |]; subst; clear H2. injection Hn as <-.
    inversion Hm; subst; clear Hm.
    split; [split; [simpl; lia|exact I]|]. intros S3 H3.
    inversion H3 as [| | | | | | | | | | | | | | | | |? ? ? Hn|]; subst; clear H3. injection Hn as <-.
    split; [split; [simpl; lia|]|intros ? ?; exact I]. intros s Hs. injection Hs as <-. vm_compute. discriminate.
  - inversion He as [|? ? ? S1 ? H1 Hr]; subst; clear He. inversion H1; subst; clear H1.
    inversion Hr as [|? ? ? S2 ? H2 Hr2]; subst; clear Hr.
    inversion H2 as [| | | | | | | | | |? ? ? ? ? Hn Hm| | | | | | | |]; subst; clear H2. injection Hn as <-. inversion Hm; subst; clear Hm.
    inversion Hr2 as [|? ? ? S3 ? H3 Hr3]; subst; clear Hr2.
    inversion H3 as [| | | | | | | | | | | | | | | | |? ? ? Hn|]; subst; clear H3. injection Hn as <-.
    inversion Hr3 as [|? ? ? S4 ? H4 Hr4]; subst; clear Hr3.
    inversion H4 as [| | | | | | | | | | | | | |? ? ? ? Hn| | | |]; subst; clear H4. injection Hn as <-. inversion Hr4; subst; clear Hr4.
    unfold put in Hx. inversion Hx as [|d t Sr Tr Hd Hr]; subst. inversion Hr; subst. exists d. split; [exact E|exact Hd].
Qed.

(** A longer program on concrete memory. *)
Example C37_run : exists S, dyn_run (fun _ n => repeat 7 (Z.to_nat n)) 0
    [NewText (buf "The quick brown fox"); NewCopy 0; Do 1 (OpAppendInt (-42)); Append 0 1; Upper 0; Length 0 16;
     NewConcat 0 (buf "!"); Move 1 0] [] = Ret S /\
  map (fun d => cstr (chars d)) S = [ []; `"THE QUICK BROWN "; `"THE QUICK BROWN !" ].
Proof. eexists. split; vm_compute; reflexivity. Qed.
