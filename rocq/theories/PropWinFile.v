(** * Properties of files on Windows: C105. *)

From Verif Require Import Base Str NumModel MapModel ParserModel WriterModel SpecNum SpecMap SpecGrammar MapProofs LexProofs SpecMeaning
  ParserProofs RootProofs SpecWrite WriterProofs PropWrite FileModel FileProofs WinFileModel.

Lemma win_read_step k oracle togo pos buf rest : (0 < togo)%nat ->
  win_read_loop (Some k :: oracle) togo pos buf rest =
  let! buf' := wrs buf pos (firstn (Nat.min k (Nat.min togo (length rest))) rest) in
  win_read_loop oracle (togo - Nat.min k (Nat.min togo (length rest))) (pos + Nat.min k (Nat.min togo (length rest))) buf'
    (skipn (Nat.min k (Nat.min togo (length rest))) rest).
Proof. intros H. destruct togo; [lia|]. reflexivity. Qed.

Lemma win_read_done oracle pos buf rest : win_read_loop oracle 0 pos buf rest = Ret (true, buf).
Proof. destruct oracle; reflexivity. Qed.

(** The reads put the bytes one after the other. *)
Lemma win_read_ok oracle : forall togo start room rest, ~ In None oracle -> (togo <= length room)%nat -> (togo <= length rest)%nat ->
  win_read_loop oracle togo (length start) (start ++ room) rest = Ret (true, start ++ firstn togo rest ++ skipn togo room) \/
  win_read_loop oracle togo (length start) (start ++ room) rest = OutOfFuel.
Proof.
  induction oracle as [|[k|] oracle IH]; intros togo start room rest HN H1 H2.
  - destruct togo; [left|right; reflexivity]. reflexivity.
  - destruct togo as [|togo]; [left; reflexivity|]. rewrite win_read_step by lia.
    set (n := Nat.min k (Nat.min (S togo) (length rest))). assert (Hn : (n <= S togo)%nat /\ (n <= length rest)%nat) by (unfold n; lia).
    assert (E : start ++ room = start ++ firstn n room ++ skipn n room) by now rewrite firstn_skipn. rewrite E.
    assert (Hf : length (firstn n rest) = n) by (rewrite firstn_length; lia).
    rewrite wrs_app by (rewrite !firstn_length; lia). cbn [bind].
    rewrite app_assoc. replace (length start + n)%nat with (length (start ++ firstn n rest)) by (rewrite app_length; lia).
    specialize (IH (S togo - n)%nat (start ++ firstn n rest) (skipn n room) (skipn n rest)).
    rewrite !skipn_length in IH. destruct IH as [IH|IH]; [intros Hin; apply HN; now right|lia|lia| |right; exact IH].
    left. rewrite IH. do 2 f_equal. rewrite skipn_skipn. replace (n + (S togo - n))%nat with (S togo) by lia.
    assert (F : firstn n rest ++ firstn (S togo - n) (skipn n rest) = firstn (S togo) rest).
    { rewrite <- (firstn_skipn n rest) at 3. rewrite firstn_app, Hf, (firstn_all2 (firstn n rest)) by lia. reflexivity. }
    rewrite <- F, <- !app_assoc. reflexivity.
  - destruct togo; [left; reflexivity|]. exfalso. apply HN. now left.
Qed.

Lemma win_read_ends oracle : forall togo start room rest, ~ In None oracle -> (togo <= length room)%nat -> (togo <= length rest)%nat ->
  (forall k, In (Some k) oracle -> (1 <= k)%nat) -> (togo <= length oracle)%nat ->
  win_read_loop oracle togo (length start) (start ++ room) rest <> OutOfFuel.
Proof.
  induction oracle as [|[k|] oracle IH]; intros togo start room rest HN H1 H2 HK HL.
  - destruct togo; [discriminate|]. cbn [length] in HL. lia.
  - destruct togo as [|togo]; [discriminate|]. rewrite win_read_step by lia. cbn [length] in HL.
    assert (Hk : (1 <= k)%nat) by (apply HK; now left).
    set (n := Nat.min k (Nat.min (S togo) (length rest))). assert (Hn : (1 <= n <= S togo)%nat /\ (n <= length rest)%nat) by (unfold n; lia).
    assert (E : start ++ room = start ++ firstn n room ++ skipn n room) by now rewrite firstn_skipn. rewrite E.
    rewrite wrs_app by (rewrite !firstn_length; lia). cbn [bind].
    rewrite app_assoc. replace (length start + n)%nat with (length (start ++ firstn n rest)) by (rewrite app_length, firstn_length; lia).
    apply IH; rewrite ?skipn_length; try lia.
    + intros Hin. apply HN. now right.
    + intros x Hx. apply HK. now right.
  - exfalso. apply HN. now left.
Qed.

(** ** C105: on Windows, when no call of the system fails and the file has the size that
    the system reports: Parse of a file has the result of Parse of the bytes of the file,
    however the reads are split; *)
Theorem C105_read (root : option value) (contents : list Z) (reads : list (option nat)) :
  Z.of_nat (length contents) <= 65534 -> ~ In None reads ->
  let call := win_parse_file root (AFile (Some (Z.of_nat (length contents))) contents reads) in
  (call = sd_parse root (contents ++ [0]) \/ call = OutOfFuel) /\
  ((forall k, In (Some k) reads -> (1 <= k)%nat) -> (length contents <= length reads)%nat -> call = sd_parse root (contents ++ [0])).
Proof.
  intros HL HN call. unfold call, win_parse_file, win_read_file, max_file_size. cbn [file_size].
  destruct (Z.ltb_spec (65535 - 1) (Z.of_nat (length contents))); [lia|]. rewrite Nat2Z.id.
  replace (Z.to_nat (Z.of_nat (length contents) + 1)) with (S (length contents)) by lia.
  assert (E : firstn (length contents) contents ++ skipn (length contents) (repeat 0 (S (length contents))) = contents ++ [0]).
  { rewrite firstn_all. f_equal. replace (S (length contents)) with (length contents + 1)%nat by lia.
    rewrite repeat_app, skipn_app, repeat_length, Nat.sub_diag, skipn_all2 by (rewrite repeat_length; lia). reflexivity. }
  pose proof (win_read_ok reads (length contents) [] (repeat 0 (S (length contents))) contents HN) as R.
  rewrite repeat_length in R. specialize (R ltac:(lia) ltac:(lia)). cbn [length app] in R. rewrite E in R. split.
  - destruct R as [R|R]; rewrite R; [left|right]; reflexivity.
  - intros HK Hr. pose proof (win_read_ends reads (length contents) [] (repeat 0 (S (length contents))) contents HN) as X.
    rewrite repeat_length in X. specialize (X ltac:(lia) ltac:(lia) HK Hr). cbn [length app] in X.
    destruct R as [R|R]; [rewrite R; reflexivity|congruence].
Qed.
Print Assumptions C105_read.

(** Write leaves exactly its text, whatever the file held before; *)
Theorem C105_write (root : option value) (old : list Z) (writes : list (option nat)) (n : nat) (c : Z) st after :
  ~ In None writes -> win_write_file root (ASink old writes) n c = Ret (st, after) ->
  exists out, sd_write root n c = (st, out) /\ after = Some (text out).
Proof.
  intros HN E. unfold win_write_file in E. destruct (sd_write root n c) as [st' out]. exists out.
  destruct (write_chunks writes out [] 0) as [r| |] eqn:Ew; try discriminate.
  destruct (write_chunks_put out writes [] 0 r (Nat.le_0_l _) HN Ew) as (o & ->). injection E as <- <-.
  split; [reflexivity|]. rewrite put_zero, skipn_nil, app_nil_r. reflexivity.
Qed.
Print Assumptions C105_write.

(** and Parse finds the document that was written, when the text has from 2 to 65534
    bytes, with finite numbers, strings that need no escapes and white space as
    indentation. *)
Theorem C105_round_trip (t : list Z) (j : jv) (n : nat) (c : Z) (old : list Z) (writes : list (option nat)) :
  lib_doc t j -> (2 <= length t)%nat -> tokens lib_plain is_finite (normal j) -> ws (repeat c n) -> ~ In None writes ->
  exists v out, (forall root, sd_parse root (t ++ [0]) = Ret (PR kOk 0 0, Some v)) /\ sd_write (Some v) n c = (kOk, out) /\
    ((2 <= length (text out))%nat -> Z.of_nat (length (text out)) <= 65534 ->
     forall st after, win_write_file (Some v) (ASink old writes) n c = Ret (st, after) ->
     st = kOk /\ after = Some (text out) /\
     forall root reads, ~ In None reads -> (forall k, In (Some k) reads -> (1 <= k)%nat) -> (length (text out) <= length reads)%nat ->
       win_parse_file root (AFile (Some (Z.of_nat (length (text out)))) (text out) reads) = Ret (PR kOk 0 0, Some v)).
Proof.
  intros Hd HL Ht Hc HN. destruct (C11_parse_write_parse t j n c Hd HL Ht Hc) as (v & out & E & W & R). exists v, out.
  split; [exact E|]. split; [exact W|]. intros H2 H6 st after Ew.
  destruct (C105_write _ _ _ _ _ _ _ HN Ew) as (out' & W' & ->). rewrite W in W'. injection W' as <- <-. split; [reflexivity|].
  split; [reflexivity|]. intros root reads HN' HK Hr.
  rewrite (proj2 (C105_read root (text out) reads H6 HN') HK Hr). now apply R.
Qed.
Print Assumptions C105_round_trip.

(** Without these conditions it is as on Linux (C32, C33): a failing write is not
    reported, and a file that is shorter than its reported size is read for ever. *)
Theorem C105_limits :
  (exists v writes after, win_write_file (Some v) (ASink [] writes) 0 32 = Ret (kOk, Some after) /\
     text (snd (sd_write (Some v) 0 32)) = `"""abc""" /\ after = `"""""") /\
  (forall root n contents reads, Z.of_nat (length contents) < n <= 65534 -> ~ In None reads ->
     win_parse_file root (AFile (Some n) contents reads) = OutOfFuel).
Proof.
  split.
  - exists (VString `"abc"), [Some 9%nat; None; Some 9%nat]. eexists. repeat split; vm_compute; reflexivity.
  - intros root n contents reads Hn HN. unfold win_parse_file, win_read_file, max_file_size. cbn [file_size].
    destruct (Z.ltb_spec (65535 - 1) n); [lia|].
    assert (G : forall oracle togo pos buf rest, ~ In None oracle -> (length rest < togo)%nat -> (pos + togo <= length buf)%nat ->
      win_read_loop oracle togo pos buf rest = OutOfFuel).
    { clear. induction oracle as [|[k|] oracle IH]; intros togo pos buf rest HN H1 H2.
      - destruct togo; [lia|reflexivity].
      - rewrite win_read_step by lia. set (m := Nat.min k (Nat.min togo (length rest))).
        assert (Hm : (m <= togo)%nat /\ (m <= length rest)%nat) by (unfold m; lia).
        rewrite <- (firstn_skipn pos buf), <- (firstn_skipn m (skipn pos buf)).
        assert (Hp : length (firstn pos buf) = pos) by (rewrite firstn_length; lia). rewrite <- Hp at 4.
        assert (Hw : length (firstn m (skipn pos buf)) = length (firstn m rest)) by (rewrite !firstn_length, skipn_length; lia).
        rewrite wrs_app by exact Hw. cbn [bind]. apply IH.
        + intros Hin. apply HN. now right.
        + rewrite skipn_length. lia.
        + rewrite !app_length, Hp, <- Hw, !firstn_length, !skipn_length. lia.
      - exfalso. apply HN. now left. }
    rewrite G; [reflexivity|exact HN|lia|rewrite repeat_length; lia].
Qed.
Print Assumptions C105_limits.

(** Failures that are reported, with the document kept: a file that cannot be opened, one that is
    too large, and a read that fails before everything is read. *)
Fixpoint wanted (reads : list (option nat)) : nat :=
  match reads with Some k :: reads => k + wanted reads | _ => 0%nat end.

Theorem C105_failures (root : option value) :
  win_parse_file root NoFile = Ret (PR KFileOpenError 0 0, root) /\
  (forall n contents reads, 65534 < n -> win_parse_file root (AFile (Some n) contents reads) = Ret (PR KFileTooLarge 0 0, root)) /\
  (forall n contents good rest, n <= 65534 -> ~ In None good -> Z.of_nat (wanted good) < n ->
     win_parse_file root (AFile (Some n) contents (good ++ None :: rest)) = Ret (PR KFileReadError 0 0, root)) /\
  (forall n c, win_write_file root NoSink n c = Ret (KFileOpenError, None)).
Proof.
  split; [reflexivity|]. split; [|split; [|reflexivity]].
  - intros n contents reads H. unfold win_parse_file, max_file_size. cbn [file_size]. destruct (Z.ltb_spec (65535 - 1) n); [reflexivity|lia].
  - intros n contents good rest H HN HW. unfold win_parse_file, win_read_file, max_file_size. cbn [file_size].
    destruct (Z.ltb_spec (65535 - 1) n); [lia|].
    assert (G : forall good togo pos buf bytes, ~ In None good -> (wanted good < togo)%nat -> (pos + togo <= length buf)%nat ->
      exists b, win_read_loop (good ++ None :: rest) togo pos buf bytes = Ret (false, b)).
    { clear. induction good as [|[k|] good IH]; intros togo pos buf bytes HN H1 H2.
      - cbn [app]. destruct togo; [lia|]. exists buf. reflexivity.
      - cbn [app wanted] in *. rewrite win_read_step by lia. set (m := Nat.min k (Nat.min togo (length bytes))).
        assert (Hm : (m <= k)%nat /\ (m <= togo)%nat /\ (m <= length bytes)%nat) by (unfold m; lia).
        rewrite <- (firstn_skipn pos buf), <- (firstn_skipn m (skipn pos buf)).
        assert (Hp : length (firstn pos buf) = pos) by (rewrite firstn_length; lia).
        assert (Hw : length (firstn m (skipn pos buf)) = length (firstn m bytes)) by (rewrite !firstn_length, skipn_length; lia).
        replace (wrs (firstn pos buf ++ firstn m (skipn pos buf) ++ skipn m (skipn pos buf)) pos (firstn m bytes))
          with (wrs (firstn pos buf ++ firstn m (skipn pos buf) ++ skipn m (skipn pos buf)) (length (firstn pos buf)) (firstn m bytes)) by now rewrite Hp.
        rewrite wrs_app by exact Hw. cbn [bind]. apply IH.
        + intros Hin. apply HN. now right.
        + lia.
        + rewrite !app_length, Hp, <- Hw, !firstn_length, !skipn_length. lia.
      - exfalso. apply HN. now left. }
    destruct (G good (Z.to_nat n) 0%nat (repeat 0 (Z.to_nat (n + 1))) contents HN ltac:(lia)) as [b ->]; [rewrite repeat_length; lia|reflexivity].
Qed.
Print Assumptions C105_failures.

(** The case of C33: a file in two parts. *)
Example C105_instance :
  win_parse_file None (AFile (Some 4) (`"[12]") [Some 1%nat; Some 2%nat; Some 1%nat]) = sd_parse None (`"[12]" ++ [0]) /\
  win_write_file (Some VNull) (ASink `"falsish" [Some 3%nat; Some 4%nat]) 0 32 = Ret (kOk, Some `"null") /\
  win_parse_file (Some VNull) (AFile (Some 4) (`"[12]") [Some 1%nat; Some 2%nat; None]) = Ret (PR KFileReadError 0 0, Some VNull).
Proof. repeat split; vm_compute; reflexivity. Qed.
