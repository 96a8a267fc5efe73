(** * Proofs about files. *)

From Verif Require Import Base LexProofs ParserModel WriterModel FileModel.

(** ** Reading *)

Lemma wrs_zero buf s : (length s <= length buf)%nat -> wrs buf 0 s = Ret (s ++ skipn (length s) buf).
Proof.
  intros H. pose proof (wrs_app [] s (firstn (length s) buf) (skipn (length s) buf)) as E. simpl in E.
  rewrite firstn_skipn in E. apply E. rewrite firstn_length. lia.
Qed.

(** What successive reads to the start of the buffer leave there. *)
Definition overlay (buf : list Z) (chunks : list (list Z)) : list Z :=
  fold_left (fun buf c => c ++ skipn (length c) buf) chunks buf.

Lemma overlay_length chunks : forall buf, (forall c, In c chunks -> (length c <= length buf)%nat) -> length (overlay buf chunks) = length buf.
Proof.
  induction chunks as [|c chunks IH]; intros buf H; simpl; [reflexivity|].
  assert (E : length (c ++ skipn (length c) buf) = length buf).
  { rewrite app_length, skipn_length. specialize (H c (or_introl eq_refl)). lia. }
  rewrite <- E. apply IH. intros x Hx. rewrite E. apply H. right. auto.
Qed.

Lemma read_loop_done oracle buf rest : read_loop oracle 0 buf rest = Ret (true, buf).
Proof. destruct oracle; reflexivity. Qed.

Lemma read_loop_step k oracle togo buf rest : (0 < togo)%nat ->
  read_loop (Some k :: oracle) togo buf rest =
  let! buf' := wrs buf 0 (firstn (Nat.min k (Nat.min togo (length rest))) rest) in
  read_loop oracle (togo - Nat.min k (Nat.min togo (length rest))) buf' (skipn (Nat.min k (Nat.min togo (length rest))) rest).
Proof. intros H. destruct togo; [lia|]. reflexivity. Qed.

Lemma read_loop_chunks chunks : forall buf rest tail,
  rest = concat chunks ++ tail -> (length (concat chunks) <= length buf)%nat -> Forall (fun c => c <> []) chunks ->
  read_loop (map (fun c => Some (length c)) chunks) (length (concat chunks)) buf rest = Ret (true, overlay buf chunks).
Proof.
  induction chunks as [|c chunks IH]; intros buf rest tail -> HL Hne; [reflexivity|].
  inversion Hne as [|? ? Hc Hne']; subst. cbn [map concat]. cbn [concat] in HL. rewrite app_length in *.
  assert (0 < length c)%nat by (destruct c; [congruence|simpl; lia]).
  rewrite read_loop_step by lia. rewrite <- app_assoc.
  replace (Nat.min (length c) (Nat.min (length c + length (concat chunks)) (length (c ++ concat chunks ++ tail)))) with (length c)
    by (rewrite !app_length; lia).
  rewrite firstn_app, firstn_all, Nat.sub_diag, firstn_O, app_nil_r. rewrite wrs_zero by lia. cbn [bind].
  rewrite skipn_app, skipn_all, Nat.sub_diag. cbn [skipn app].
  replace (length c + length (concat chunks) - length c)%nat with (length (concat chunks)) by lia.
  apply (IH _ _ tail); auto. rewrite app_length, skipn_length. lia.
Qed.

(** No read goes outside the buffer. *)
Lemma read_loop_safe oracle : forall togo buf rest, (togo <= length buf)%nat ->
  (exists ok buf', read_loop oracle togo buf rest = Ret (ok, buf') /\ length buf' = length buf) \/
  read_loop oracle togo buf rest = OutOfFuel.
Proof.
  induction oracle as [|[k|] oracle IH]; intros [|togo] buf rest HL; try (left; do 2 eexists; split; reflexivity).
  - right. reflexivity.
  - rewrite read_loop_step by lia. rewrite wrs_zero by (rewrite firstn_length; lia). cbn [bind].
    match goal with |- context [read_loop oracle ?t ?b ?r] => destruct (IH t b r) as [(ok & b' & E & El)|E] end.
    + rewrite app_length, skipn_length, firstn_length. lia.
    + left. exists ok, b'. split; [exact E|]. rewrite El, app_length, skipn_length, firstn_length. lia.
    + right. exact E.
Qed.

(** A file that ends before the size that fstat gave. *)
Lemma read_loop_hangs oracle : forall togo buf rest, (length rest < togo)%nat -> (togo <= length buf)%nat ->
  ~ In None oracle -> read_loop oracle togo buf rest = OutOfFuel.
Proof.
  induction oracle as [|[k|] oracle IH]; intros togo buf rest H1 H2 HN.
  - destruct togo; [lia|]. reflexivity.
  - rewrite read_loop_step by lia. rewrite wrs_zero by (rewrite firstn_length; lia). cbn [bind]. apply IH.
    + rewrite skipn_length. lia.
    + rewrite app_length, skipn_length, firstn_length. lia.
    + intros Hin. apply HN. right. exact Hin.
  - exfalso. apply HN. left. reflexivity.
Qed.

Lemma bytes_overlay chunks : forall buf, bytes buf -> Forall bytes chunks -> bytes (overlay buf chunks).
Proof.
  induction chunks as [|c chunks IH]; intros buf Hb Hc; simpl; [auto|]. inversion Hc; subst. apply IH; auto.
  apply bytes_app. split; [auto|]. apply Forall_forall. intros x Hx. apply (proj1 (Forall_forall _ _) Hb).
  rewrite <- (firstn_skipn (length c) buf). apply in_app_iff. auto.
Qed.

Lemma bytes_firstn n l : bytes l -> bytes (firstn n l).
Proof. intros H. rewrite <- (firstn_skipn n l) in H. apply bytes_app in H. tauto. Qed.
Lemma bytes_skipn n l : bytes l -> bytes (skipn n l).
Proof. intros H. rewrite <- (firstn_skipn n l) in H. apply bytes_app in H. tauto. Qed.

Lemma read_loop_bytes oracle : forall togo buf rest ok buf', (togo <= length buf)%nat -> bytes buf -> bytes rest ->
  read_loop oracle togo buf rest = Ret (ok, buf') -> bytes buf'.
Proof.
  induction oracle as [|[k|] oracle IH]; intros [|togo] buf rest ok buf' HL Hb Hr E;
    try (injection E as _ <-; exact Hb); try discriminate.
  rewrite read_loop_step in E by lia. rewrite wrs_zero in E by (rewrite firstn_length; lia). cbn [bind] in E.
  eapply IH in E; auto.
  - rewrite app_length, skipn_length, firstn_length. lia.
  - apply bytes_app. split; [apply bytes_firstn; auto|apply bytes_skipn; auto].
  - apply bytes_skipn. auto.
Qed.

(** The terminator is never overwritten. *)
Lemma read_loop_last oracle : forall togo buf rest ok buf', (togo < length buf)%nat ->
  read_loop oracle togo buf rest = Ret (ok, buf') -> last buf' 0 = last buf 0.
Proof.
  induction oracle as [|[k|] oracle IH]; intros [|togo] buf rest ok buf' HL E;
    try (injection E as _ <-; reflexivity); try discriminate.
  rewrite read_loop_step in E by lia. rewrite wrs_zero in E by (rewrite firstn_length; lia). cbn [bind] in E.
  eapply IH in E.
  - rewrite E. set (f := firstn _ rest). assert (Hf : (length f < length buf)%nat) by (unfold f; rewrite firstn_length; lia).
    clearbody f. clear - Hf. assert (Hs : skipn (length f) buf <> []).
    { intros Hs. apply (f_equal (@length Z)) in Hs. rewrite skipn_length in Hs. simpl in Hs. lia. }
    rewrite <- (firstn_skipn (length f) buf) at 2.
    assert (H : forall a b : list Z, b <> [] -> last (a ++ b) 0 = last b 0).
    { intros a b Hb. induction a as [|x a IHa]; [reflexivity|]. cbn [app]. destruct (a ++ b) eqn:Eab.
      - apply app_eq_nil in Eab. tauto.
      - rewrite <- IHa. reflexivity. }
    rewrite !H; auto.
  - rewrite app_length, skipn_length, firstn_length. lia.
Qed.

(** ** Writing *)

Lemma put_nil contents offset : (offset <= length contents)%nat -> put contents offset [] = contents.
Proof.
  intros H. unfold put. replace (offset - length contents)%nat with 0%nat by lia. simpl. rewrite Nat.add_0_r. apply firstn_skipn.
Qed.

Lemma skipn_skipn {A} n m (l : list A) : skipn n (skipn m l) = skipn (m + n) l.
Proof.
  revert l. induction m as [|m IH]; intros l; [reflexivity|]. destruct l as [|x l]; [now rewrite !skipn_nil|]. simpl. apply IH.
Qed.

Lemma put_length contents offset a : (offset <= length contents)%nat -> (offset + length a <= length (put contents offset a))%nat.
Proof.
  intros H. unfold put. rewrite !app_length, repeat_length, firstn_length, skipn_length. lia.
Qed.

Lemma put_put contents offset a b : (offset <= length contents)%nat ->
  put (put contents offset a) (offset + length a) b = put contents offset (a ++ b).
Proof.
  intros H. unfold put at 2 3. replace (offset - length contents)%nat with 0%nat by lia. cbn [repeat app].
  assert (Hf : length (firstn offset contents) = offset) by (rewrite firstn_length; lia).
  unfold put. rewrite !app_length, skipn_length, Hf.
  replace (offset + length a - (offset + (length a + (length contents - (offset + length a)))))%nat with 0%nat by lia. cbn [repeat app].
  rewrite (app_assoc (firstn offset contents) a). rewrite firstn_app.
  rewrite (firstn_all2 (firstn offset contents ++ a)) by (rewrite app_length; lia).
  rewrite (app_length (firstn offset contents) a), Hf, Nat.sub_diag, firstn_O, app_nil_r.
  rewrite <- !app_assoc. do 3 f_equal. rewrite (app_assoc (firstn offset contents) a), skipn_app, app_length, Hf.
  rewrite (skipn_all2 (firstn offset contents ++ a)) by (rewrite app_length; lia). cbn [app].
  rewrite skipn_skipn. f_equal. lia.
Qed.

(** Without a failing write, the data ends up in the file, however it is split. *)
Lemma write_loop_put oracle : forall data contents offset r, (offset <= length contents)%nat -> ~ In None oracle ->
  write_loop oracle data contents offset = Ret r ->
  exists oracle', r = (put contents offset data, (offset + length data)%nat, oracle') /\ ~ In None oracle'.
Proof.
  induction oracle as [|[k|] oracle IH]; intros [|x data] contents offset r HO HN E; try discriminate.
  - injection E as <-. eexists. rewrite put_nil, Nat.add_0_r by auto. split; [reflexivity|auto].
  - injection E as <-. eexists. rewrite put_nil, Nat.add_0_r by auto. split; [reflexivity|auto].
  - set (d := x :: data) in *. change (write_loop oracle (skipn (Nat.min k (length d)) d)
      (put contents offset (firstn (Nat.min k (length d)) d)) (offset + Nat.min k (length d)) = Ret r) in E.
    set (n := Nat.min k (length d)) in *.
    assert (Hn : length (firstn n d) = n) by (rewrite firstn_length; unfold n; lia).
    apply IH in E.
    + destruct E as (o & -> & Ho). exists o. split; [|auto]. f_equal. f_equal.
      * rewrite <- Hn at 2. rewrite put_put by auto. now rewrite firstn_skipn.
      * rewrite skipn_length. unfold n. lia.
    + pose proof (put_length contents offset (firstn n d) HO). rewrite Hn in *. auto.
    + intros Hin. apply HN. right. auto.
  - exfalso. apply HN. left. auto.
  - exfalso. apply HN. left. auto.
Qed.

Lemma write_chunks_put chunks : forall oracle contents offset r, (offset <= length contents)%nat -> ~ In None oracle ->
  write_chunks oracle chunks contents offset = Ret r ->
  exists oracle', r = (put contents offset (concat chunks), (offset + length (concat chunks))%nat, oracle').
Proof.
  induction chunks as [|c chunks IH]; intros oracle contents offset r HO HN E; simpl in *.
  - injection E as <-. rewrite put_nil, Nat.add_0_r by auto. eauto.
  - destruct (write_loop oracle c contents offset) as [r1| |] eqn:E1; try discriminate. simpl in E.
    apply write_loop_put in E1; auto. destruct E1 as (o & -> & Ho). apply IH in E; auto.
    + destruct E as (o' & ->). exists o'. rewrite put_put, app_length by auto. rewrite Nat.add_assoc. reflexivity.
    + apply put_length. auto.
Qed.

Lemma write_loop_total oracle : forall data contents offset,
  (forall k, In (Some k) oracle -> (1 <= k)%nat) -> (length data <= length oracle)%nat ->
  exists c o oracle', write_loop oracle data contents offset = Ret (c, o, oracle') /\ (length oracle <= length oracle' + length data)%nat /\
    (forall x, In x oracle' -> In x oracle).
Proof.
  induction oracle as [|[k|] oracle IH]; intros [|x data] contents offset HK HL; try (simpl in HL; lia);
    try (do 3 eexists; split; [reflexivity|split; [lia|auto]]).
  - set (d := x :: data) in *. change (exists c o oracle', write_loop oracle (skipn (Nat.min k (length d)) d)
      (put contents offset (firstn (Nat.min k (length d)) d)) (offset + Nat.min k (length d)) = Ret (c, o, oracle') /\
      (length (Some k :: oracle) <= length oracle' + length d)%nat /\ (forall x, In x oracle' -> In x (Some k :: oracle))).
    assert (1 <= k)%nat by (apply HK; left; auto).
    destruct (IH (skipn (Nat.min k (length d)) d) (put contents offset (firstn (Nat.min k (length d)) d)) (offset + Nat.min k (length d))%nat)
      as (c & o & oo & E & H1 & H2).
    + intros k' Hk'. apply HK. right. auto.
    + assert (Ed : length d = S (length data)) by reflexivity. cbn [length] in HL. rewrite skipn_length. lia.
    + exists c, o, oo. split; [exact E|]. rewrite skipn_length in H1. split; [|intros y Hy; right; auto].
      assert (Ed : length d = S (length data)) by reflexivity. cbn [length]. lia.
  - do 3 eexists. split; [reflexivity|]. split; [simpl in *; lia|]. intros y Hy. right. auto.
Qed.

Lemma write_chunks_total chunks : forall oracle contents offset,
  (forall k, In (Some k) oracle -> (1 <= k)%nat) -> (length (concat chunks) <= length oracle)%nat ->
  exists c o oracle', write_chunks oracle chunks contents offset = Ret (c, o, oracle').
Proof.
  induction chunks as [|c chunks IH]; intros oracle contents offset HK HL; simpl in *; [eauto|]. rewrite app_length in HL.
  destruct (write_loop_total oracle c contents offset HK) as (c1 & o1 & oo & E & H1 & H2); [lia|]. rewrite E. simpl. apply IH; [auto|lia].
Qed.

Lemma put_zero contents data : put contents 0 data = data ++ skipn (length data) contents.
Proof. reflexivity. Qed.
