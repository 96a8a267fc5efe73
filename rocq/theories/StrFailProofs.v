(** * Proofs about String<0> when memory runs out. *)

From Verif Require Import Base StringModel SpecText StringProofs DynModel DynProofs StrFailModel SpecStrFail.

#[local] Arguments Z.eqb : simpl nomatch.
#[local] Arguments Z.ltb : simpl nomatch.

Lemma read_embed d : f_read (embed d) = Ret (chars d).
Proof. unfold f_read, embed, chars. cbn. now destruct (heap d). Qed.
Lemma write_embed d b : f_write (embed d) b = Ret (embed (with_chars d b)).
Proof. unfold f_write, embed, with_chars. cbn. destruct d as [l p [h|] loc]; reflexivity. Qed.
Lemma delete_embed d : f_delete (embed d) = Ret tt.
Proof. unfold f_delete, embed. cbn. now destruct (heap d). Qed.
Lemma logical_embed d n : FStr n (f_physical (embed d)) (f_store (embed d)) (f_local (embed d)) = embed (with_logical d n).
Proof. reflexivity. Qed.

(** The contents of new blocks, for the functions of DynModel.v. *)
Definition fill (a : Z -> option (list Z)) (n : Z) : list Z := match a n with Some b => b | None => repeat 0 (Z.to_nat n) end.

(** What a call has done when it throws. *)
Definition thrown (c : fcmd) (d : dyn) (s : fstr) : Prop :=
  f_local s = local d /\
  (assigns c -> f_store s = match heap d with Some _ => Freed | None => Local end) /\
  (~ assigns c -> f_store s = f_store (embed d)) /\
  (appends c -> f_logical s = logical d).

Definition lift (x : out dyn) : out (bool * fstr) := let! d := x in Ret (true, embed d).
Definition split_cmd (c : fcmd) (d : dyn) (E : out (bool * fstr)) (V : out dyn) (a : Z -> option (list Z)) : Prop :=
  E = lift V \/ (exists s, E = Ret (false, s) /\ thrown c d s) /\ exists n, a n = None.

Section Alloc.
Variable a : Z -> option (list Z).

Lemma resize_split d size :
  f_resize a (embed d) size = Ret (true, embed (resize (fill a) d size)) \/
  f_resize a (embed d) size = Ret (false, FStr size (physical_size size) (match heap d with Some _ => Freed | None => Local end) (local d)) /\
    16 < size /\ a (physical_size size) = None.
Proof.
  unfold f_resize, resize. rewrite delete_embed. cbn [f_physical embed bind]. destruct (Z.ltb_spec 16 size); [|left; reflexivity].
  destruct (_ || _); [|left; reflexivity]. unfold fill. destruct (a (physical_size size)) as [b|] eqn:E; [left; reflexivity|right].
  split; [|auto]. unfold embed. cbn [f_store f_local]. destruct (heap d); reflexivity.
Qed.

Lemma grow_split d size :
  f_grow a (embed d) size = (let! d := grow (fill a) d size in Ret (true, embed d)) \/
  (exists p, f_grow a (embed d) size = Ret (false, FStr (logical d) p (f_store (embed d)) (local d)) /\ size <= p /\ a p = None).
Proof.
  unfold f_grow, grow. cbn [f_physical]. change (f_physical (embed d)) with (physical d). destruct (Z.ltb_spec (physical d) size); [|left; reflexivity].
  set (p := Z.max _ _). unfold fill. destruct (a p) as [b|] eqn:E.
  - left. rewrite read_embed, delete_embed. cbn [bind]. destruct (copy_text (chars d) b 0); reflexivity.
  - right. exists p. split; [reflexivity|]. split; [|exact E]. pose proof (physical_size_ge size). lia.
Qed.

Lemma update_embed f d : f_update f (embed d) = let! b := f (chars d) in Ret (embed (with_chars d b)).
Proof. unfold f_update. rewrite read_embed. cbn [bind]. destruct (f (chars d)); [apply write_embed|reflexivity|reflexivity]. Qed.

Lemma then_resize c d size k V : assigns c -> (forall d, k (embed d) = let! d := V d in Ret (embed d)) ->
  split_cmd c d (f_then (f_resize a (embed d) size) k) (V (resize (fill a) d size)) a.
Proof.
  intros Hc Hk. destruct (resize_split d size) as [E|(E & _ & Ha)]; unfold f_then; rewrite E; cbn [bind].
  - left. rewrite Hk. unfold lift. destruct (V _); reflexivity.
  - right. split; [|eauto]. eexists. split; [reflexivity|]. split; [reflexivity|]. split; [reflexivity|]. split; [tauto|].
    intros Hap. destruct c; cbn in *; tauto.
Qed.

Lemma then_grow c d size k V : appends c -> (forall d, k (embed d) = let! d := V d in Ret (embed d)) ->
  split_cmd c d (f_then (f_grow a (embed d) size) k) (let! d := grow (fill a) d size in V d) a.
Proof.
  intros Hc Hk. destruct (grow_split d size) as [E|(p & E & _ & Ha)]; unfold f_then; rewrite E.
  - left. unfold lift. destruct (grow (fill a) d size) as [d'| |]; [|reflexivity|reflexivity]. cbn [bind]. rewrite Hk. destruct (V _); reflexivity.
  - right. split; [|eauto]. cbn [bind]. eexists. split; [reflexivity|]. split; [reflexivity|].
    split; [intros Has; destruct c; cbn in *; tauto|]. split; reflexivity.
Qed.

Lemma purge_embed d : f_purge (embed d) = lift (purge d).
Proof. unfold f_purge, purge. rewrite delete_embed. cbn [bind f_local embed]. destruct (wr (local d) 0 0); reflexivity. Qed.

Lemma at_end_embed f size d : f_at_end f size (embed d) = let! d := (let! d := at_end d f in Ret (with_logical d size)) in Ret (embed d).
Proof.
  unfold f_at_end, at_end. cbn [f_logical embed]. change (f_logical (embed d)) with (logical d). destruct (logical d <? 1); [reflexivity|].
  rewrite update_embed. destruct (f (chars d) (Z.to_nat (logical d - 1))); reflexivity.
Qed.

Lemma text_embed p d : f_update (fun b => copy_text p b 0) (embed d) = let! d := (let! b := copy_text p (chars d) 0 in Ret (with_chars d b)) in Ret (embed d).
Proof. rewrite update_embed. destruct (copy_text p (chars d) 0); reflexivity. Qed.

(** Each call either does what it does with enough memory, or throws in a known state. *)
Lemma cmd_split c d : split_cmd c d (f_cmd a c (embed d)) (dyn_fcmd (fill a) c d) a.
Proof.
  destruct c as [o|from|n| |]; [destruct o as [p|p n|n|n|p|k|n|n|p n]| | | |]; cbn [f_cmd dyn_fcmd dyn_op].
  - unfold f_text, dyn_text. destruct (get_text_length p) as [l| |]; [|now left|now left]. cbn [bind].
    destruct (0 <? l)%nat; [|left; apply purge_embed].
    apply (then_resize (FOp (OpAssign p)) d _ _ (fun d => let! b := copy_text p (chars d) 0 in Ret (with_chars d b))); [exact I|].
    intros d'. apply text_embed.
  - unfold f_set, dyn_set. destruct (cut_length (Z.to_nat n) p) as [l| |]; [|now left|now left]. cbn [bind].
    destruct (0 <? l)%nat; [|left; apply purge_embed].
    apply (then_resize (FOp (OpSet p n)) d _ _ (fun d => let! b := copy_text_max p (chars d) 0 (Z.of_nat l) in Ret (with_chars d b))); [exact I|].
    intros d'. rewrite update_embed. destruct (copy_text_max p (chars d') 0 (Z.of_nat l)); reflexivity.
  - apply (then_resize (FOp (OpInt n)) d 64 _ (fun d => let! (b, l) := integer_to_string n (chars d) 0 63 in Ret (with_logical (with_chars d b) (l + 1)))); [exact I|].
    intros d'. rewrite read_embed. cbn [bind]. destruct (integer_to_string n (chars d') 0 63) as [[b l]| |]; [|reflexivity|reflexivity].
    cbn [bind]. rewrite write_embed. reflexivity.
  - apply (then_resize (FOp (OpInt64 n)) d 64 _ (fun d => let! (b, l) := integer64_to_string n (chars d) 0 63 in Ret (with_logical (with_chars d b) (l + 1)))); [exact I|].
    intros d'. rewrite read_embed. cbn [bind]. destruct (integer64_to_string n (chars d') 0 63) as [[b l]| |]; [|reflexivity|reflexivity].
    cbn [bind]. rewrite write_embed. reflexivity.
  - unfold f_append, dyn_append. destruct (get_text_length p) as [l| |]; [|now left|now left]. cbn [bind].
    destruct (0 <? l)%nat; [|now left]. cbn [f_logical embed]. change (f_logical (embed d)) with (logical d).
    apply (then_grow (FOp (OpAppend p)) d _ _ (fun d' => let! d' := at_end d' (copy_text p) in Ret (with_logical d' (logical d + Z.of_nat l)))); [cbn; tauto|].
    intros d'. apply at_end_embed.
  - unfold f_append_char, dyn_append_char. change (f_logical (embed d)) with (logical d).
    apply (then_grow (FOp (OpAppendChar k)) d _ _ (fun d' => let! d' := at_end d' _ in Ret (with_logical d' (logical d + 1)))); [cbn; tauto|].
    intros d'. apply at_end_embed.
  - unfold f_append_number, dyn_append_number. change (f_logical (embed d)) with (logical d).
    apply (then_grow (FOp (OpAppendInt n)) d _ _ (fun d => if logical d <? 1 then UB else let! (b, l) := integer_to_string n (chars d) (Z.to_nat (logical d - 1)) 63 in Ret (with_logical (with_chars d b) (logical d + l)))); [cbn; tauto|].
    intros d'. change (f_logical (embed d')) with (logical d'). destruct (logical d' <? 1); [reflexivity|]. rewrite read_embed. cbn [bind].
    destruct (integer_to_string n (chars d') (Z.to_nat (logical d' - 1)) 63) as [[b l]| |]; [|reflexivity|reflexivity]. cbn [bind]. rewrite write_embed.
    cbn [bind]. change (f_logical (embed (with_chars d' b))) with (logical (with_chars d' b)). rewrite logical_with. reflexivity.
  - unfold f_append_number, dyn_append_number. change (f_logical (embed d)) with (logical d).
    apply (then_grow (FOp (OpAppendInt64 n)) d _ _ (fun d => if logical d <? 1 then UB else let! (b, l) := integer64_to_string n (chars d) (Z.to_nat (logical d - 1)) 63 in Ret (with_logical (with_chars d b) (logical d + l)))); [cbn; tauto|].
    intros d'. change (f_logical (embed d')) with (logical d'). destruct (logical d' <? 1); [reflexivity|]. rewrite read_embed. cbn [bind].
    destruct (integer64_to_string n (chars d') (Z.to_nat (logical d' - 1)) 63) as [[b l]| |]; [|reflexivity|reflexivity]. cbn [bind]. rewrite write_embed.
    cbn [bind]. change (f_logical (embed (with_chars d' b))) with (logical (with_chars d' b)). rewrite logical_with. reflexivity.
  - unfold f_append_string, dyn_append_string. destruct (0 <? n); [|now left]. change (f_logical (embed d)) with (logical d).
    apply (then_grow (FOp (OpAppendString p n)) d _ _ (fun d' => let! d' := at_end d' _ in Ret (with_logical d' (logical d + n)))); [cbn; tauto|].
    intros d'. apply at_end_embed.
  - unfold f_assign, dyn_assign. destruct (1 <? logical from); [|left; apply purge_embed].
    apply (then_resize (FAssign from) d _ _ (fun d => let! b := copy_text (chars from) (chars d) 0 in Ret (with_chars d b))); [exact I|].
    intros d'. apply text_embed.
  - unfold f_set_length, set_string_length. destruct (0 <? n); [|left; apply purge_embed].
    change (f_logical (embed d)) with (logical d). destruct (negb (n + 1 =? logical d)); [|now left].
    change (f_physical (embed d)) with (physical d). set (cl := Z.min n (logical d - 1)).
    assert (K : forall d', f_update (fun b => wr b (Z.to_nat n) 0) (embed d') = let! d := (let! b := wr (chars d') (Z.to_nat n) 0 in Ret (with_chars d' b)) in Ret (embed d)).
    { intros d'. rewrite update_embed. destruct (wr (chars d') (Z.to_nat n) 0); reflexivity. }
    destruct (16 <? n + 1).
    + destruct (_ || _).
      * unfold fill. destruct (a (physical_size (n + 1))) as [b|] eqn:E.
        -- left. rewrite read_embed, delete_embed. cbn [bind]. destruct (copy_text_max (chars d) b 0 cl) as [b'| |]; [|reflexivity|reflexivity].
           unfold f_then. cbn [bind]. change (FStr _ _ _ _) with (embed (Dyn (n + 1) (physical_size (n + 1)) (Some b') (local d))).
           rewrite K. unfold lift. destruct (wr _ _ _); reflexivity.
        -- right. split; [|eauto]. eexists. split; [reflexivity|]. split; [reflexivity|]. split; [intros []|]. split; [reflexivity|intros []].
      * left. unfold f_then. cbn [bind]. change (FStr _ _ _ _) with (embed (with_logical d (n + 1))). rewrite K. unfold lift. destruct (wr _ _ _); reflexivity.
    + left. unfold embed at 1. cbn [f_store]. destruct (heap d) as [h|] eqn:Eh.
      * rewrite read_embed, delete_embed. unfold chars at 1. rewrite Eh. cbn [bind]. change (f_local (embed d)) with (local d).
        destruct (copy_text_max h (local d) 0 cl) as [b'| |]; [|reflexivity|reflexivity]. unfold f_then. cbn [bind].
        change (FStr _ _ _ _) with (embed (Dyn (n + 1) (physical d) None b')). rewrite K. unfold lift. destruct (wr _ _ _); reflexivity.
      * unfold f_then. cbn [bind f_local]. replace (FStr (n + 1) (physical d) Local (f_local (embed d))) with (embed (with_logical d (n + 1))) by (unfold embed, with_logical; cbn; now rewrite Eh).
        rewrite K. unfold lift. destruct (wr _ _ _); reflexivity.
  - left. apply purge_embed.
  - unfold f_escape, dyn_escape. rewrite read_embed. cbn [bind]. destruct (get_text_length (chars d)) as [l| |]; [|now left|now left]. cbn [bind].
    destruct (existsb _ _); [|now left]. set (n := Z.of_nat _). unfold fill. destruct (a (physical_size n)) as [b|] eqn:E.
    + left. rewrite delete_embed. destruct (encode_into (chars d) b 0); reflexivity.
    + right. split; [|eauto]. eexists. split; [reflexivity|]. split; [reflexivity|]. split; [intros []|]. split; [reflexivity|intros []].
Qed.
End Alloc.

(** ** Calls with operands in range *)

(** New blocks have the requested size. *)
Definition grants (a : Z -> option (list Z)) : Prop := forall n b, 0 <= n -> a n = Some b -> Z.of_nat (length b) = n.

Lemma fill_length a : grants a -> forall n, 0 <= n -> Z.of_nat (length (fill a n)) = n.
Proof. intros H n Hn. unfold fill. destruct (a n) eqn:E; [eauto|]. rewrite repeat_length. lia. Qed.

Lemma dyn_fcmd_ok g c d : (forall n, 0 <= n -> Z.of_nat (length (g n)) = n) -> sound d -> fcmd_ok sound c ->
  exists d', dyn_fcmd g c d = Ret d' /\ sound d'.
Proof.
  intros Hg Hd Hc. destruct c as [o|from|n| |]; cbn [dyn_fcmd fcmd_ok] in *.
  - destruct (dyn_op_ok g Hg d o Hd Hc) as (d' & E & H & _). eauto.
  - destruct (dyn_assign_ok g Hg d from Hd Hc) as (d' & E & H & _). eauto.
  - destruct (set_length_ok g Hg d n Hd Hc) as (d' & E & H & _). eauto.
  - destruct (purge_ok d) as (d' & E & H); [apply Hd|]. apply exact_sound in H. eauto.
  - destruct Hc.
Qed.

(** ** A deleted block *)

Lemma freed_read s : f_store s = Freed -> f_read s = UB.
Proof. intros H. unfold f_read. now rewrite H. Qed.
Lemma freed_delete s : f_store s = Freed -> f_delete s = UB.
Proof. intros H. unfold f_delete. now rewrite H. Qed.
Lemma freed_update f s : f_store s = Freed -> f_update f s = UB.
Proof. intros H. unfold f_update. now rewrite freed_read. Qed.
Lemma freed_purge s : f_store s = Freed -> f_purge s = UB.
Proof. intros H. unfold f_purge. now rewrite freed_delete. Qed.

Lemma freed_resize a s size k ok s' : f_store s = Freed -> (forall s, f_store s = Freed -> k s = UB) -> f_then (f_resize a s size) k <> Ret (ok, s').
Proof.
  intros H Hk. unfold f_then, f_resize. rewrite freed_delete by assumption. cbn [bind].
  destruct (16 <? size); [|discriminate]. destruct (_ || _); [discriminate|]. cbn [bind]. rewrite Hk; [discriminate|exact H].
Qed.

Lemma freed_grow a s size k ok s' : f_store s = Freed -> (forall s, f_store s = Freed -> k s = UB) -> f_then (f_grow a s size) k = Ret (ok, s') ->
  ok = false /\ f_store s' = Freed.
Proof.
  intros H Hk. unfold f_then, f_grow. destruct (_ <? _).
  - destruct (a _); [rewrite freed_read by assumption; discriminate|]. cbn [bind]. intros [= <- <-]. auto.
  - cbn [bind]. rewrite Hk by assumption. discriminate.
Qed.

Lemma freed_end f size s : f_store s = Freed -> f_at_end f size s = UB.
Proof. intros H. unfold f_at_end. destruct (_ <? _); [reflexivity|]. now rewrite freed_update. Qed.

Lemma freed_stays a c s ok s' : f_store s = Freed -> f_cmd a c s = Ret (ok, s') -> f_store s' = Freed /\ (ok = true -> s' = s).
Proof.
  intros H E.
  assert (G : forall size k, (forall s, f_store s = Freed -> k s = UB) -> f_then (f_grow a s size) k = Ret (ok, s') -> f_store s' = Freed /\ (ok = true -> s' = s)).
  { intros size k Hk E'. destruct (freed_grow a s size k ok s' H Hk E') as [-> F]. split; [exact F|discriminate]. }
  assert (R : forall size k, (forall s, f_store s = Freed -> k s = UB) -> f_then (f_resize a s size) k = Ret (ok, s') -> f_store s' = Freed /\ (ok = true -> s' = s)).
  { intros size k Hk E'. now apply freed_resize in E'. }
  assert (P : f_purge s = Ret (ok, s') -> f_store s' = Freed /\ (ok = true -> s' = s)) by (rewrite freed_purge by assumption; discriminate).
  assert (N : forall (conv : Z -> list Z -> nat -> Z -> out (list Z * Z)) n0 s0, f_store s0 = Freed -> (let! b := f_read s0 in let! (b, l) := conv n0 b 0%nat 63 in let! s := f_write s0 b in Ret (FStr (l + 1) (f_physical s) (f_store s) (f_local s))) = (UB : out fstr)).
  { intros conv n0 s0 H0. now rewrite freed_read. }
  destruct c as [o|from|n| |]; [destruct o as [p|p n|n|n|p|k|n|n|p n]| | | |]; cbn [f_cmd] in E.
  - unfold f_text in E. destruct (get_text_length p) as [l| |]; [|discriminate|discriminate]. cbn [bind] in E. destruct (0 <? l)%nat; [|auto].
    eapply R; [|exact E]. intros; now apply freed_update.
  - unfold f_set in E. destruct (cut_length _ p) as [l| |]; [|discriminate|discriminate]. cbn [bind] in E. destruct (0 <? l)%nat; [|auto].
    eapply R; [|exact E]. intros; now apply freed_update.
  - eapply R; [|exact E]. intros; now apply N.
  - eapply R; [|exact E]. intros; now apply N.
  - unfold f_append in E. destruct (get_text_length p) as [l| |]; [|discriminate|discriminate]. cbn [bind] in E. destruct (0 <? l)%nat; [|injection E as <- <-; auto].
    eapply G; [|exact E]. intros; now apply freed_end.
  - eapply G; [|exact E]. intros; now apply freed_end.
  - eapply G; [|exact E]. intros s0 H0. cbv beta. destruct (_ <? _); [reflexivity|]. now rewrite freed_read.
  - eapply G; [|exact E]. intros s0 H0. cbv beta. destruct (_ <? _); [reflexivity|]. now rewrite freed_read.
  - unfold f_append_string in E. destruct (0 <? n); [|injection E as <- <-; auto]. eapply G; [|exact E]. intros; now apply freed_end.
  - unfold f_assign in E. destruct (1 <? logical from); [|auto]. eapply R; [|exact E]. intros; now apply freed_update.
  - unfold f_set_length in E. destruct (0 <? n); [|auto]. destruct (negb _); [|injection E as <- <-; auto]. unfold f_then in E. rewrite freed_read in E by assumption.
    destruct (16 <? n + 1).
    + destruct (_ || _).
      * destruct (a _); [discriminate|]. cbn [bind] in E. injection E as <- <-. split; [exact H|discriminate].
      * cbn [bind] in E. rewrite freed_update in E by exact H. discriminate.
    + rewrite H in E. discriminate.
  - auto.
  - unfold f_escape in E. rewrite freed_read in E by assumption. discriminate.
Qed.

Lemma freed_run cs : forall s oks s', f_store s = Freed -> f_run cs s = Ret (oks, s') -> f_store s' = Freed.
Proof.
  induction cs as [|[c a] cs IH]; intros s oks s' H E; [injection E as <- <-; exact H|]. cbn [f_run] in E.
  destruct (f_cmd a c s) as [[ok s1]| |] eqn:E1; [|discriminate|discriminate]. cbn [bind] in E.
  destruct (f_run cs s1) as [[oks1 s2]| |] eqn:E2; [|discriminate|discriminate]. injection E as <- <-.
  eapply IH; [|exact E2]. eapply freed_stays; eauto.
Qed.

(** ** Writing behind the storage *)

Lemma wr_over b i c : (length b <= i)%nat -> wr b i c = UB.
Proof.
  revert i. induction b as [|x b IH]; intros [|i] H; try reflexivity; cbn [length] in H; [lia|]. cbn. now rewrite IH by lia.
Qed.

Lemma copy_text_over p : In 0 p -> forall b i, (length b < i + length (cstr p) + 1)%nat -> copy_text p b i = UB.
Proof.
  induction p as [|c p IH]; intros H b i L; [destruct H|]. cbn [copy_text]. destruct (le_lt_dec (length b) i) as [Hi|Hi].
  { now rewrite wr_over. }
  rewrite wr_splice by assumption. cbn [bind]. cbn [cstr] in L. destruct (Z.eqb_spec c 0) as [->|N].
  - cbn [length] in L. lia.
  - destruct H as [|H]; [congruence|]. cbn [length] in L. apply IH; [exact H|]. rewrite splice_length by (cbn; lia). lia.
Qed.
