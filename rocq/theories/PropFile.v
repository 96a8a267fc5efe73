(** * Properties of files: C32, C33, C34, C48, C49. *)

From Verif Require Import Base Str NumModel MapModel ParserModel WriterModel SpecMap SpecGrammar MapProofs LexProofs SpecMeaning
  ParserProofs RootProofs SpecWrite WriterProofs PropWrite SchemaModel SpecSchema SchemaProofs StoreProofs PropSchema
  FileModel FileProofs HistoryProofs.

(** ** C32 *)

(** Not so: bytes of the previous file remain behind the document, and a failing
    write is not noticed. *)
Theorem C32_refuted :
  (exists v old writes after, sd_write_file (Some v) (ASink old writes) 0 32 = Ret (kOk, Some after) /\ ~ In None writes /\
     text (snd (sd_write (Some v) 0 32)) = `"null" /\ after = `"nullish") /\
  (exists v writes after, sd_write_file (Some v) (ASink [] writes) 0 32 = Ret (kOk, Some after) /\
     text (snd (sd_write (Some v) 0 32)) = `"""abc""" /\ after = `"""""").
Proof.
  split.
  - exists VNull, `"falsish", [Some 4%nat]. eexists. split; [vm_compute; reflexivity|]. split; [|split; vm_compute; reflexivity].
    simpl. intuition discriminate.
  - exists (VString `"abc"), [Some 9%nat; None; Some 9%nat]. eexists. repeat split; vm_compute; reflexivity.
Qed.
Print Assumptions C32_refuted.

(** What is true (C48): when no write fails, the file holds the text of the
    document and then what was there before beyond the length of the text, however
    the kernel splits the writes. *)
Theorem C48_written (root : option value) (old : list Z) (writes : list (option nat)) (n : nat) (c : Z) st after :
  ~ In None writes -> sd_write_file root (ASink old writes) n c = Ret (st, after) ->
  exists out, sd_write root n c = (st, out) /\ after = Some (text out ++ skipn (length (text out)) old).
Proof.
  intros HN E. unfold sd_write_file in E. destruct (sd_write root n c) as [st' out]. exists out.
  destruct (write_chunks writes out old 0) as [r| |] eqn:Ew; try discriminate.
  destruct (write_chunks_put out writes old 0 r (Nat.le_0_l _) HN Ew) as (o & ->). injection E as <- <-. auto.
Qed.
Print Assumptions C48_written.

(** So a sound document that is not shorter than the file it replaces is written
    exactly, and Write returns. *)
Theorem C32_exact_partial (v : value) (old : list Z) (writes : list (option nat)) (n : nat) (c : Z) :
  sound_value v -> ~ In None writes -> (forall k, In (Some k) writes -> (1 <= k)%nat) ->
  (length old <= length (text (snd (sd_write (Some v) n c))) <= length writes)%nat ->
  sd_write_file (Some v) (ASink old writes) n c = Ret (kOk, Some (text (snd (sd_write (Some v) n c)))).
Proof.
  intros Hs HN HK HL. destruct (write_sound n c v Hs []) as (out & E).
  assert (Eo : sd_write (Some v) n c = (kOk, out)) by (unfold sd_write; rewrite E; reflexivity).
  rewrite Eo in *. simpl in HL. unfold text in HL. destruct (write_chunks_total out writes old 0 HK) as (c1 & o1 & oo & Ew); [lia|].
  assert (Ef : sd_write_file (Some v) (ASink old writes) n c = Ret (kOk, Some c1)).
  { unfold sd_write_file. rewrite Eo, Ew. reflexivity. }
  rewrite Ef. destruct (C48_written _ _ _ _ _ _ _ HN Ef) as (out' & Eo' & E1). rewrite Eo in Eo'. injection Eo' as <-.
  injection E1 as ->. simpl. rewrite skipn_all2 by (unfold text; lia). now rewrite app_nil_r.
Qed.
Print Assumptions C32_exact_partial.

Example C32_instance :
  sd_write_file (Some shape_value) (ASink `"old" (repeat (Some 7%nat) 300)) 2 32 = Ret (kOk, Some (text (snd (sd_write (Some shape_value) 2 32)))) /\
  (length (text (snd (sd_write (Some shape_value) 2 32))) <= 300)%nat.
Proof. split; [vm_compute; reflexivity|]. apply Nat.leb_le. vm_compute. reflexivity. Qed.

(** ** C33 *)

(** Not so: when the kernel delivers the file in two parts, the second overwrites
    the first. Here the file is 12 and the document is 2. *)
Theorem C33_refuted : exists contents reads v v', ~ In None reads /\
  sd_parse_file None (AFile (Some (Z.of_nat (length contents))) contents reads) = Ret (PR kOk 0 0, Some v) /\
  sd_parse None (contents ++ [0]) = Ret (PR kOk 0 0, Some v') /\ v <> v'.
Proof.
  exists `"12", [Some 1%nat; Some 1%nat]. do 2 eexists. split; [simpl; intuition discriminate|].
  split; [vm_compute; reflexivity|]. split; [vm_compute; reflexivity|]. discriminate.
Qed.
Print Assumptions C33_refuted.

(** And when the file is shorter than fstat said, reading never ends: for every
    sequence of reads without an error the call has not returned. *)
Theorem C33_hang_refuted (root : option value) (n : Z) (contents : list Z) (reads : list (option nat)) :
  Z.of_nat (length contents) < n <= 65534 -> ~ In None reads ->
  sd_parse_file root (AFile (Some n) contents reads) = OutOfFuel.
Proof.
  intros Hn HN. unfold sd_parse_file, read_file, max_file_size. simpl file_size.
  destruct (Z.ltb_spec (65535 - 1) n); [lia|]. rewrite read_loop_hangs; auto; [lia|]. rewrite repeat_length. lia.
Qed.
Print Assumptions C33_hang_refuted.

(** What is true (C49): when the first read delivers everything, the result is that
    of parsing the bytes of the file. *)
Theorem C49_one_read (root : option value) (contents : list Z) (k : nat) (reads : list (option nat)) :
  Z.of_nat (length contents) <= 65534 -> (length contents <= k)%nat ->
  sd_parse_file root (AFile (Some (Z.of_nat (length contents))) contents (Some k :: reads)) = sd_parse root (contents ++ [0]).
Proof.
  intros Hn Hk. unfold sd_parse_file, read_file, max_file_size. simpl file_size.
  destruct (Z.ltb_spec (65535 - 1) (Z.of_nat (length contents))); [lia|]. rewrite Nat2Z.id.
  replace (Z.to_nat (Z.of_nat (length contents) + 1)) with (S (length contents)) by lia.
  destruct contents as [|x contents]; [reflexivity|]. set (f := x :: contents) in *.
  assert (Hf : (0 < length f)%nat) by (unfold f; simpl; lia).
  rewrite read_loop_step by auto. replace (Nat.min k (Nat.min (length f) (length f))) with (length f) by lia.
  rewrite firstn_all. rewrite wrs_zero by (rewrite repeat_length; lia). cbn [bind]. rewrite Nat.sub_diag, read_loop_done. cbn [bind].
  do 2 f_equal. replace (S (length f)) with (length f + 1)%nat by lia. rewrite repeat_app, skipn_app, repeat_length, Nat.sub_diag.
  rewrite skipn_all2 by (rewrite repeat_length; lia). reflexivity.
Qed.
Print Assumptions C49_one_read.

(** In general: when the kernel delivers the file in the non-empty parts [chunks],
    what is parsed is the parts laid over each other, all from the start of the
    buffer. *)
Theorem C33_overlay (root : option value) (chunks : list (list Z)) :
  Forall (fun c => c <> []) chunks -> Z.of_nat (length (concat chunks)) <= 65534 ->
  sd_parse_file root (AFile (Some (Z.of_nat (length (concat chunks)))) (concat chunks) (map (fun c => Some (length c)) chunks)) =
  sd_parse root (overlay (repeat 0 (S (length (concat chunks)))) chunks).
Proof.
  intros Hc Hn. unfold sd_parse_file, read_file, max_file_size. simpl file_size.
  destruct (Z.ltb_spec (65535 - 1) (Z.of_nat (length (concat chunks)))); [lia|]. rewrite Nat2Z.id.
  replace (Z.to_nat (Z.of_nat (length (concat chunks)) + 1)) with (S (length (concat chunks))) by lia.
  rewrite (read_loop_chunks chunks _ _ []); auto; [now rewrite app_nil_r|]. rewrite repeat_length. lia.
Qed.
Print Assumptions C33_overlay.

(** In no case is memory outside the buffer touched. *)
Theorem C33_safe_partial (root : option value) (fstat : option Z) (contents : list Z) (reads : list (option nat)) :
  match fstat with Some n => 0 <= n | None => True end -> bytes contents ->
  sd_parse_file root (AFile fstat contents reads) <> UB.
Proof.
  intros Hn HB. destruct (parse_file_effective root (AFile fstat contents reads)) as [(r & a & E & _)|E]; [split; auto| |]; rewrite E; discriminate.
Qed.
Print Assumptions C33_safe_partial.

Example C33_instance :
  sd_parse_file None (AFile (Some (Z.of_nat (length shape_text))) shape_text [Some 500%nat]) = Ret (PR kOk 0 0, Some shape_value) /\
  overlay (repeat 0 5) [`"[1"; `"2]"] = [50; 93; 0; 0; 0].
Proof.
  split; [|reflexivity]. rewrite C49_one_read.
  - vm_compute. reflexivity.
  - apply Z.leb_le. vm_compute. reflexivity.
  - apply Nat2Z.inj_le. apply Z.leb_le. vm_compute. reflexivity.
Qed.

(** ** C34: a file of more than 65534 bytes is refused, the document stays, and
    nothing is read (the result does not depend on the results of reads, and
    there is one when there are none); a file of at most 65534 bytes is not
    refused for its size. *)
Theorem C34_size_limit (root : option value) (n : Z) (contents : list Z) (reads : list (option nat)) :
  (65534 < n -> sd_parse_file root (AFile (Some n) contents []) = Ret (PR KFileTooLarge 0 0, root) /\
                sd_parse_file root (AFile (Some n) contents reads) = Ret (PR KFileTooLarge 0 0, root)) /\
  (0 <= n <= 65534 -> bytes contents -> forall r after, sd_parse_file root (AFile (Some n) contents reads) = Ret (r, after) -> pr_status r <> KFileTooLarge).
Proof.
  split.
  - intros H. unfold sd_parse_file, max_file_size. simpl file_size. destruct (Z.ltb_spec (65535 - 1) n); [auto|lia].
  - intros H HB r after E.
    destruct (parse_file_effective root (AFile (Some n) contents reads)) as [(r' & a & E' & He & _)|E']; [split; [lia|auto]| |];
      rewrite E' in E; [|discriminate]. injection E as <- <-.
    inversion He; subst; try lia; try discriminate.
    match goal with H : SpecHistory.parse_effect _ _ _ _ |- _ => inversion H; try discriminate end.
    match goal with H : SpecHistory.syntax_error _ |- _ => inversion H; discriminate end.
Qed.
Print Assumptions C34_size_limit.

Example C34_instance : sd_parse_file (Some VNull) (AFile (Some 65535) [91; 93] [Some 1%nat]) = Ret (PR KFileTooLarge 0 0, Some VNull) /\
  sd_parse_file (Some VNull) (AFile (Some 2) [91; 93] [Some 2%nat]) = Ret (PR kOk 0 0, Some (VArray [])).
Proof. split; vm_compute; reflexivity. Qed.
