(** * String<0> when memory runs out: C98.

    [embed d] is the object [d] of C37 in the model with failures; [f_cmd a c s] is the call
    [c]: [true] when it comes to its end, [false] when it throws; [a n] answers the request
    for [n] bytes. *)

From Verif Require Import Base StringModel SpecText StringProofs DynModel DynProofs StrFailModel SpecStrFail StrFailProofs Str.

Lemma repeat_size (c : Z) n : 0 <= n -> Z.of_nat (length (repeat c (Z.to_nat n))) = n.
Proof. intros H. rewrite repeat_length. lia. Qed.

Definition refuses : Z -> option (list Z) := fun _ => None.
Definition gives : Z -> option (list Z) := fun n => Some (repeat 7 (Z.to_nat n)).
Definition forty : list Z := buf "0123456789012345678901234567890123456789".

Lemma refuses_grants : grants refuses.
Proof. intros n b _ E. discriminate. Qed.
Lemma gives_grants : grants gives.
Proof. intros n b Hn [= <-]. rewrite repeat_length. lia. Qed.

Definition empty_string : dyn := Dyn 1 16 None (0 :: repeat 48 14 ++ [0]).
Definition long_string : dyn := match new_text (fun n => repeat 7 (Z.to_nat n)) forty with Ret d => d | _ => empty_string end.

Lemma empty_exact : exact empty_string [].
Proof. split; [split; [reflexivity|split; [reflexivity|reflexivity]]|]. split; [|reflexivity]. split; [constructor|]. eexists. reflexivity. Qed.

Lemma long_exact : exact long_string (cstr forty).
Proof.
  destruct (new_text_ok (fun n => repeat 7 (Z.to_nat n)) (repeat_size 7) forty ltac:(vm_compute; tauto)) as (d & E & H).
  replace long_string with d; [exact H|]. unfold long_string. now rewrite E.
Qed.

(** ** What goes wrong *)

(** Full claim: a call that throws leaves the object as it was. False in three ways.

    An assignment to a string with a text on the heap: the block is deleted before the
    request, and the destructor deletes it again. (Deserialize of a string is such an
    assignment, C4Json.h:753-776: it says kException and leaves such an object.) *)
Theorem C98_freed_refuted : exists d t c a s, exact d t /\ fcmd_ok sound c /\ grants a /\
  f_cmd a c (embed d) = Ret (false, s) /\ f_destroy s = UB.
Proof.
  exists long_string, (cstr forty), (FAssign (Dyn 91 128 (Some (repeat 65 90 ++ 0 :: repeat 65 37)) local_init)), refuses. eexists.
  split; [apply long_exact|]. split; [|split; [apply refuses_grants|split; vm_compute; reflexivity]].
  split; [split; [reflexivity|split; [reflexivity|discriminate]]|]. split; [split; reflexivity || discriminate|].
  exists 90%nat. split; reflexivity.
Qed.
Print Assumptions C98_freed_refuted.

(** ... and so it is for every such string and assignment, whatever the object is used for
    before it is destroyed: calls that come to their end have done nothing. *)
Theorem C98_freed (d : dyn) (c : fcmd) (a : Z -> option (list Z)) (s : fstr) :
  assigns c -> heap d <> None -> f_cmd a c (embed d) = Ret (false, s) ->
  f_destroy s = UB /\ f_read s = UB /\
  (forall a' c' s', f_cmd a' c' s = Ret (true, s') -> s' = s) /\
  forall cs oks s', f_run cs s = Ret (oks, s') -> f_destroy s' = UB.
Proof.
  intros Hc Hh E. assert (F : f_store s = Freed).
  { destruct (cmd_split a c d) as [E'|[(s0 & E' & T) _]].
    - rewrite E in E'. unfold lift in E'. destruct (dyn_fcmd _ _ _); discriminate.
    - rewrite E in E'. injection E' as <-. destruct T as (_ & T & _). rewrite T by assumption. destruct (heap d); [reflexivity|congruence]. }
  split; [now apply freed_delete|]. split; [now apply freed_read|]. split.
  - intros a' c' s' E'. apply (freed_stays a' c' s true s' F E'). reflexivity.
  - intros cs oks s' E'. apply freed_delete. eapply freed_run; eauto.
Qed.
Print Assumptions C98_freed.

(** The same call again, after one that threw and with enough memory, writes behind the
    storage: an append in every case ... *)
Theorem C98_append_again (d : dyn) (p : ptr) (a a' : Z -> option (list Z)) (s : fstr) :
  sound d -> In 0 p -> f_cmd a (FOp (OpAppend p)) (embed d) = Ret (false, s) -> f_cmd a' (FOp (OpAppend p)) s = UB.
Proof.
  intros ((_ & Hs & _) & Hl & Hn) Hp E. cbn [f_cmd] in *. unfold f_append in *. rewrite text_length in * by exact Hp. cbn [bind] in *.
  destruct (Nat.ltb_spec 0 (length (cstr p))) as [L|L]; [|discriminate]. change (f_logical (embed d)) with (logical d) in E.
  unfold f_then at 1 in E. unfold f_grow at 1 in E. change (f_physical (embed d)) with (physical d) in E.
  destruct (Z.ltb_spec (physical d) (logical d + Z.of_nat (length (cstr p)))) as [P|P].
  2:{ cbn [bind] in E. destruct (f_at_end _ _ _); discriminate. }
  set (size := logical d + Z.of_nat (length (cstr p))) in *. set (q := Z.max _ _) in E.
  assert (Q : size <= q) by (pose proof (physical_size_ge size); lia).
  destruct (a q) as [b|].
  { rewrite read_embed, delete_embed in E. cbn [bind] in E. destruct (copy_text (chars d) b 0); [|discriminate|discriminate]. cbn [bind] in E.
    destruct (f_at_end _ _ _); discriminate. }
  cbn [bind] in E. injection E as <-. cbn [f_logical]. change (f_logical (embed d)) with (logical d). fold size.
  unfold f_then, f_grow. cbn [f_physical]. destruct (Z.ltb_spec q size); [lia|]. cbn [bind].
  unfold f_at_end. cbn [f_logical]. change (f_logical (embed d)) with (logical d). destruct (Z.ltb_spec (logical d) 1); [reflexivity|].
  unfold f_update. change (f_read _) with (f_read (embed d)). rewrite read_embed. cbn [bind].
  rewrite copy_text_over; [reflexivity|exact Hp|]. subst size. lia.
Qed.
Print Assumptions C98_append_again.

(** ... and an assignment of at least 63 characters to a string in the local storage. *)
Theorem C98_assign_again (d : dyn) (p : ptr) (a a' : Z -> option (list Z)) (s : fstr) :
  sound d -> heap d = None -> In 0 p -> 63 <= Z.of_nat (length (cstr p)) ->
  f_cmd a (FOp (OpAssign p)) (embed d) = Ret (false, s) -> f_cmd a' (FOp (OpAssign p)) s = UB.
Proof.
  intros ((H16 & Hs & _) & Hl & Hn) Hh Hp L E. cbn [f_cmd] in *. unfold f_text in *. rewrite text_length in * by exact Hp. cbn [bind] in *.
  destruct (Nat.ltb_spec 0 (length (cstr p))) as [L0|L0]; [|lia]. set (size := Z.of_nat (length (cstr p)) + 1) in *.
  unfold f_then at 1 in E. destruct (resize_split a d size) as [E'|(E' & _)]; rewrite E' in E; cbn [bind] in E.
  { destruct (f_update _ _); discriminate. }
  injection E as <-. rewrite Hh. unfold f_then, f_resize. cbn [f_physical f_store f_local].
  destruct (Z.ltb_spec 16 size); [|lia].
  pose proof (physical_size_ge size) as G1. assert (G2 : physical_size size <= 2 * size + 1).
  { unfold physical_size. change (Z.lnot 63) with (Z.lnot (Z.ones 6)). rewrite <- Z.ldiff_land, Z.ldiff_ones_r, Z.shiftr_div_pow2, Z.shiftl_mul_pow2 by lia.
    change (2 ^ 6) with 64. pose proof (Z.div_mod (size + 67) 64 ltac:(lia)). pose proof (Z.mod_pos_bound (size + 67) 64 ltac:(lia)).
    destruct (Z_lt_le_dec size 67); [|lia]. assert (D : (size + 67) / 64 <= 2) by (apply Z.lt_succ_r, Z.div_lt_upper_bound; lia). lia. }
  assert (G3 : physical_size size / 2 <= size) by (apply Z.lt_succ_r, Z.div_lt_upper_bound; lia).
  destruct (Z.ltb_spec (physical_size size) size); [lia|]. destruct (Z.ltb_spec size (physical_size size / 2)); [lia|].
  cbn [orb bind]. unfold f_update, f_read. cbn [f_store f_local bind]. rewrite copy_text_over; [reflexivity|exact Hp|]. lia.
Qed.
Print Assumptions C98_assign_again.

Theorem C98_overflow_refuted : exists d t c a a' s, exact d t /\ fcmd_ok sound c /\ grants a /\ grants a' /\ (forall n, a' n <> None) /\
  f_cmd a c (embed d) = Ret (false, s) /\ f_cmd a' c s = UB.
Proof.
  exists empty_string, [], (FOp (OpAssign forty)), refuses, gives. eexists. split; [apply empty_exact|]. split; [vm_compute; tauto|].
  split; [apply refuses_grants|]. split; [apply gives_grants|]. split; [discriminate|]. split; vm_compute; reflexivity.
Qed.
Print Assumptions C98_overflow_refuted.

(** SetStringLength that throws has set the length and the size: the length is the new one,
    the same call again says that it is done and does nothing, and writing at the new end is
    undefined. *)
Lemma append_over (a : Z -> option (list Z)) (s : fstr) (b : list Z) (k : Z) :
  f_read s = Ret b -> 1 <= f_logical s < f_physical s -> Z.of_nat (length b) <= f_logical s -> f_cmd a (FOp (OpAppendChar k)) s = UB.
Proof.
  intros R L H. cbn [f_cmd]. unfold f_append_char, f_then, f_grow. destruct (Z.ltb_spec (f_physical s) (f_logical s + 1)); [lia|]. cbn [bind].
  unfold f_at_end. destruct (Z.ltb_spec (f_logical s) 1); [lia|]. unfold f_update. rewrite R. cbn [bind].
  assert (D : wr b (Z.to_nat (f_logical s - 1)) k = UB \/ exists b', wr b (Z.to_nat (f_logical s - 1)) k = Ret b' /\ length b' = length b).
  { destruct (Nat.le_gt_cases (length b) (Z.to_nat (f_logical s - 1))); [left; now apply wr_over|right].
    eexists. split; [apply wr_splice; lia|]. apply splice_length. cbn [length]. lia. }
  destruct D as [->|(b' & -> & E)]; [reflexivity|]. cbn [bind]. rewrite wr_over; [reflexivity|lia].
Qed.

Theorem C98_length_thrown (d : dyn) (n : Z) (a : Z -> option (list Z)) (s : fstr) :
  sound d -> f_cmd a (FLength n) (embed d) = Ret (false, s) ->
  f_logical s = n + 1 /\ n + 1 < f_physical s /\ f_read s = Ret (chars d) /\
  (forall a', f_cmd a' (FLength n) s = Ret (true, s)) /\
  (physical d <= n -> forall a' k, f_cmd a' (FOp (OpAppendChar k)) s = UB).
Proof.
  intros ((_ & Hs & _) & Hl & _) E. cbn [f_cmd] in E. unfold f_set_length in E.
  destruct (Z.ltb_spec 0 n) as [N|N].
  2:{ rewrite purge_embed in E. unfold lift in E. destruct (purge d); discriminate. }
  change (f_logical (embed d)) with (logical d) in E. change (f_physical (embed d)) with (physical d) in E. destruct (negb (n + 1 =? logical d)); [|discriminate].
  unfold f_then in E. destruct (Z.ltb_spec 16 (n + 1)).
  - destruct ((physical d <? n + 1) || (n + 1 <? physical d / 2)).
    + destruct (a (physical_size (n + 1))) as [b|].
      { rewrite read_embed in E. cbn [bind] in E. destruct (copy_text_max _ _ _ _); try discriminate. rewrite delete_embed in E. cbn [bind] in E.
        destruct (f_update _ _); discriminate. }
      cbn [bind] in E. injection E as <-. pose proof (physical_size_ge (n + 1)) as G. cbn [f_logical f_physical].
      split; [reflexivity|]. split; [lia|]. split; [exact (read_embed d)|]. split.
      * intros a'. cbn [f_cmd]. unfold f_set_length. destruct (Z.ltb_spec 0 n); [|lia]. cbn [f_logical]. now rewrite Z.eqb_refl.
      * intros P a' k. apply (append_over a' _ (chars d) k); [exact (read_embed d)|cbn [f_logical f_physical]; lia|]. cbn [f_logical]. lia.
    + cbn [bind] in E. destruct (f_update _ _); discriminate.
  - destruct (f_store (embed d)) eqn:F; cbn [bind] in E.
    + destruct (f_update _ _); discriminate.
    + rewrite read_embed in E. cbn [bind] in E. destruct (copy_text_max _ _ _ _); try discriminate. rewrite delete_embed in E. cbn [bind] in E. destruct (f_update _ _); discriminate.
    + unfold embed in F. cbn [f_store] in F. destruct (heap d); discriminate.
Qed.
Print Assumptions C98_length_thrown.

(** EncodeEscapeSequences likewise: the text is the old one, the length that of the new one. *)
Theorem C98_escape_thrown (d : dyn) (t : list Z) (a : Z -> option (list Z)) (s : fstr) :
  exact d t -> f_cmd a FEscape (embed d) = Ret (false, s) ->
  f_logical s = Z.of_nat (length (concat (map encoded t))) /\ f_logical s < f_physical s /\ (exists b, f_read s = Ret b /\ holds b t) /\
  (physical d <= f_logical s -> forall a' k, f_cmd a' (FOp (OpAppendChar k)) s = UB).
Proof.
  intros (Hs & Hx & Hl) E. cbn [f_cmd] in E. unfold f_escape in E. rewrite read_embed in E. cbn [bind] in E.
  destruct (holds_nul _ _ Hx) as [Hi Hc]. rewrite text_length in E by exact Hi. cbn [bind] in E. rewrite Hc in E.
  replace (firstn (length t) (chars d)) with t in E.
  2:{ destruct Hx as [_ (r & ->)]. rewrite firstn_app, firstn_all, Nat.sub_diag. cbn [firstn]. now rewrite app_nil_r. }
  destruct (existsb _ t) eqn:X; [|discriminate]. set (n := Z.of_nat (length (concat (map encoded t)))) in *.
  destruct (a (physical_size n)) as [b|].
  { destruct (encode_into _ _ _); try discriminate. rewrite delete_embed in E. discriminate. }
  injection E as <-. cbn [f_logical f_physical]. pose proof (physical_size_ge n) as G. split; [reflexivity|]. split; [lia|].
  split; [exists (chars d); split; [exact (read_embed d)|exact Hx]|]. intros P a' k. destruct Hs as (_ & Hs & _).
  apply (append_over a' _ (chars d) k); [exact (read_embed d)| |]; cbn [f_logical f_physical]; [|lia].
  split; [|lia]. apply existsb_exists in X. destruct X as (c & Hc1 & Hc2). apply Nat.ltb_lt in Hc2.
  apply in_split in Hc1. destruct Hc1 as (l1 & l2 & ->). subst n. rewrite map_app, concat_app, app_length. cbn [map concat]. rewrite app_length. lia.
Qed.
Print Assumptions C98_escape_thrown.

Example C98_fields_instance : exists s s',
  f_cmd refuses (FLength 40) (embed empty_string) = Ret (false, s) /\ f_logical s = 41 /\ f_cmd gives (FOp (OpAppendChar 65)) s = UB /\
  f_cmd refuses FEscape (embed (Dyn 16 16 None (repeat 10 15 ++ [0]))) = Ret (false, s') /\ f_logical s' = 30 /\ f_cmd gives (FOp (OpAppendChar 65)) s' = UB.
Proof. do 2 eexists. split; [vm_compute; reflexivity|]. split; [reflexivity|]. split; [vm_compute; reflexivity|]. split; [vm_compute; reflexivity|]. split; vm_compute; reflexivity. Qed.

(** ** What is true *)

(** On objects as in C37 no call does anything undefined, whether it throws or not. *)
Theorem C98_total (d : dyn) (c : fcmd) (a : Z -> option (list Z)) : sound d -> fcmd_ok sound c -> grants a ->
  exists ok s, f_cmd a c (embed d) = Ret (ok, s) /\ (ok = true -> exists d', s = embed d' /\ sound d') /\ (ok = false -> exists n, a n = None).
Proof.
  intros Hd Hc Ha. destruct (cmd_split a c d) as [E|[(s & E & _) N]].
  - destruct (dyn_fcmd_ok (fill a) c d (fill_length a Ha) Hd Hc) as (d' & E' & H'). rewrite E, E'. exists true, (embed d').
    split; [reflexivity|]. split; [eauto|discriminate].
  - exists false, s. split; [exact E|]. split; [discriminate|auto].
Qed.
Print Assumptions C98_total.

(** A call that comes to its end has done what it means. *)
Theorem C98_done (d : dyn) (t : list Z) (o : str_op) (a : Z -> option (list Z)) (s : fstr) :
  exact d t -> operand_ok o -> full_op o -> grants a -> f_cmd a (FOp o) (embed d) = Ret (true, s) ->
  exists d' t', s = embed d' /\ meaning o t t' /\ exact d' t'.
Proof.
  intros Hd Ho Hf Ha E. destruct (cmd_split a (FOp o) d) as [E'|[(s' & E' & _) _]]; rewrite E in E'; [|discriminate].
  destruct (dyn_op_ok (fill a) (fill_length a Ha) d o (exact_sound d t Hd) Ho) as (d' & E2 & _ & H2). cbn [dyn_fcmd] in E'. rewrite E2 in E'.
  injection E' as ->. destruct (H2 t Hd Hf) as (t' & M & X). exists d', t'. auto.
Qed.
Print Assumptions C98_done.

(** Assigning fewer than 16 characters never throws. *)
Theorem C98_short (d : dyn) (p : ptr) (a : Z -> option (list Z)) : sound d -> In 0 p -> (length (cstr p) < 16)%nat ->
  exists d', f_cmd a (FOp (OpAssign p)) (embed d) = Ret (true, embed d') /\ exact d' (cstr p).
Proof.
  intros Hd Hp L. destruct (dyn_text_ok (fun n => repeat 0 (Z.to_nat n)) (repeat_size 0) d p Hd Hp) as (d' & E' & H').
  exists d'. split; [|exact H']. unfold dyn_text in E'. cbn [f_cmd]. unfold f_text. rewrite text_length in * by exact Hp. cbn [bind] in *.
  destruct (Nat.ltb_spec 0 (length (cstr p))) as [L0|L0]; [|rewrite purge_embed, E'; reflexivity].
  unfold f_then, f_resize. unfold resize in E'. destruct (Z.ltb_spec 16 (Z.of_nat (length (cstr p)) + 1)); [lia|]. rewrite delete_embed. cbn [bind].
  change (FStr _ _ _ _) with (embed (Dyn (Z.of_nat (length (cstr p)) + 1) 16 None (local d))). rewrite text_embed, E'. reflexivity.
Qed.
Print Assumptions C98_short.

(** After a throw, except of an assignment to a text on the heap, the text can still be read
    and the object destroyed; PurgeString makes it an empty string. Appends keep the length
    too. Missing: everything else one can do with the object. *)
Theorem C98_thrown_partial (d : dyn) (t : list Z) (c : fcmd) (a : Z -> option (list Z)) (s : fstr) :
  exact d t -> f_cmd a c (embed d) = Ret (false, s) -> (assigns c -> heap d = None) ->
  (exists b, f_read s = Ret b /\ holds b t) /\ f_destroy s = Ret tt /\
  (exists d', f_purge s = Ret (true, embed d') /\ exact d' []) /\ (appends c -> f_logical s = Z.of_nat (length t) + 1).
Proof.
  intros Hd E Hh. destruct (cmd_split a c d) as [E'|[(s' & E' & T) _]].
  { rewrite E in E'. unfold lift in E'. destruct (dyn_fcmd _ _ _); discriminate. }
  rewrite E in E'. injection E' as <-. destruct T as (T1 & T2 & T3 & T4).
  assert (F : f_store s = f_store (embed d)).
  { assert (D : assigns c \/ ~ assigns c) by (destruct c as [[]| | | |]; cbn; tauto). destruct D as [D|D]; [|now apply T3].
    rewrite T2 by exact D. unfold embed. cbn [f_store]. now rewrite (Hh D). }
  assert (R : f_read s = Ret (chars d)) by (rewrite <- read_embed; unfold f_read; rewrite F; cbn [f_local embed]; now rewrite T1).
  assert (D : f_delete s = Ret tt) by (rewrite <- (delete_embed d); unfold f_delete; now rewrite F).
  destruct Hd as (Hs & Hx & Hl). split; [eauto|]. split; [exact D|]. split.
  - destruct (purge_ok d (proj1 Hs)) as (d' & E' & X). exists d'. split; [|exact X]. unfold f_purge. rewrite D. cbn [bind]. rewrite T1.
    unfold purge in E'. destruct (wr (local d) 0 0); [|discriminate|discriminate]. injection E' as <-. reflexivity.
  - intros Ha. rewrite T4 by exact Ha. exact Hl.
Qed.
Print Assumptions C98_thrown_partial.

(** Clients that purge or destroy a string after a call that threw, and do not catch what an
    assignment to a text on the heap throws, are safe. *)
Definition purges (cs : list (fcmd * (Z -> option (list Z)))) : Prop := match cs with [] => True | (c, _) :: _ => c = FPurge end.
Fixpoint careful (cs : list (fcmd * (Z -> option (list Z)))) (s : fstr) : Prop :=
  match cs with
  | [] => True
  | (c, a) :: cs' =>
      fcmd_ok sound c /\ grants a /\
      forall ok s', f_cmd a c s = Ret (ok, s') -> (ok = false -> (assigns c -> ~ on_heap s) /\ purges cs') /\ careful cs' s'
  end.

Theorem C98_careful_partial (cs : list (fcmd * (Z -> option (list Z)))) (d : dyn) : sound d -> careful cs (embed d) ->
  exists oks s, f_run cs (embed d) = Ret (oks, s) /\ length oks = length cs /\ f_destroy s = Ret tt.
Proof.
  intros Hd. assert (G : forall s, (exists d, s = embed d /\ sound d) \/ (f_store s <> Freed /\ length (f_local s) = 16%nat /\ purges cs) -> careful cs s ->
    exists oks s', f_run cs s = Ret (oks, s') /\ length oks = length cs /\ f_destroy s' = Ret tt).
  2:{ intros C. apply G; [eauto|exact C]. }
  clear d Hd. induction cs as [|[c a] cs IH]; intros s Hs C.
  - exists [], s. split; [reflexivity|]. split; [reflexivity|]. destruct Hs as [(d & -> & _)|(F & _)]; [apply delete_embed|].
    unfold f_destroy, f_delete. destruct (f_store s); congruence || reflexivity.
  - destruct C as (Hc & Ha & C). destruct Hs as [(d & -> & Hd)|(F & L & Hp)].
    + destruct (C98_total d c a Hd Hc Ha) as (ok & s & E & H1 & H2). destruct (C ok s E) as (C1 & C2).
      destruct (IH s) as (oks & s' & E' & L' & D'); [|exact C2|].
      * destruct ok; [left; auto|right]. destruct (C1 eq_refl) as [C3 C4].
        destruct (cmd_split a c d) as [E'|[(s0 & E' & T) _]].
        { rewrite E in E'. unfold lift in E'. destruct (dyn_fcmd _ _ _); discriminate. }
        rewrite E in E'. injection E' as <-. destruct T as (T1 & T2 & T3 & _). split; [|split; [rewrite T1; apply Hd|exact C4]].
        assert (D : assigns c \/ ~ assigns c) by (destruct c as [[]| | | |]; cbn; tauto). destruct D as [D|D].
        -- rewrite T2 by exact D. specialize (C3 D). unfold on_heap, embed in C3. cbn [f_store] in C3. destruct (heap d); [|discriminate].
           elim C3. discriminate.
        -- rewrite T3 by exact D. unfold embed. cbn [f_store]. now destruct (heap d).
      * exists (ok :: oks), s'. cbn [f_run]. rewrite E. cbn [bind]. rewrite E'. cbn [bind length]. auto.
    + cbn [purges] in Hp. subst c. cbn [f_cmd] in C. destruct (purge_ok (Dyn 1 16 None (f_local s)) L) as (d' & Ed & X).
      assert (E : f_purge s = Ret (true, embed d')).
      { unfold f_purge, f_delete. unfold purge in Ed. cbn [local] in Ed. destruct (f_store s); [| |congruence]; cbn [bind];
        destruct (wr (f_local s) 0 0); try discriminate; injection Ed as <-; reflexivity. }
      destruct (C _ _ E) as (_ & C2). destruct (IH (embed d')) as (oks & s' & E' & L' & D').
      * left. exists d'. split; [reflexivity|]. eapply exact_sound; eauto.
      * exact C2.
      * exists (true :: oks), s'. cbn [f_run f_cmd]. rewrite E. cbn [bind]. rewrite E'. cbn [bind length]. auto.
Qed.
Print Assumptions C98_careful_partial.

(** Instance: an append that throws, PurgeString, an assignment of forty characters, appends of a
    number and of texts, one that throws, and the end. *)
Definition client : list (fcmd * (Z -> option (list Z))) :=
  [(FOp (OpAppend forty), refuses); (FPurge, refuses); (FOp (OpAssign forty), gives); (FOp (OpAppendInt (-42)), gives);
   (FOp (OpAppend forty), gives); (FOp (OpAppend forty), gives); (FOp (OpAppend forty), refuses)].

Example C98_instance : careful client (embed empty_string) /\ exists s,
  f_run client (embed empty_string) = Ret ([false; true; true; true; true; true; false], s) /\ f_destroy s = Ret tt /\
  exists b, f_read s = Ret b /\ cstr b = cstr forty ++ `"-42" ++ cstr forty ++ cstr forty.
Proof.
  assert (Hf : In 0 forty) by (vm_compute; tauto).
  split.
  - unfold client. cbn [careful fcmd_ok operand_ok purges assigns initialises].
    repeat match goal with
    | |- _ /\ _ => split
    | |- In 0 _ => assumption
    | |- grants refuses => apply refuses_grants
    | |- grants gives => apply gives_grants
    | |- True => exact I
    | |- - 2 ^ 31 < _ => reflexivity
    | |- _ < 2 ^ 31 => reflexivity
    | |- forall ok s', _ = Ret (ok, s') -> _ => let E := fresh in intros ? ? E; vm_compute in E; injection E as <- <-
    | |- true = false -> _ => discriminate
    | |- false = false -> _ => intros _
    | |- False -> _ => intros []
    | |- FPurge = FPurge => reflexivity
    end.
  - eexists. split; [vm_compute; reflexivity|]. split; [reflexivity|]. eexists. split; vm_compute; reflexivity.
Qed.

(** Instance of C98_thrown_partial: forty characters do not fit, and the empty text stays. *)
Example C98_thrown_instance : exists s, f_cmd refuses (FOp (OpAssign forty)) (embed empty_string) = Ret (false, s) /\
  heap empty_string = None /\ f_logical s = 41 /\ exists b, f_read s = Ret b /\ holds b [].
Proof.
  eexists. split; [vm_compute; reflexivity|]. split; [reflexivity|]. split; [reflexivity|]. eexists. split; [reflexivity|].
  split; [constructor|]. eexists. reflexivity.
Qed.
