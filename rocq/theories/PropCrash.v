(** * Properties of a Write that is interrupted: C101, C102. *)

From Verif Require Import Base Str NumModel MapModel ParserModel WriterModel SpecMap SpecGrammar MapProofs LexProofs SpecMeaning
  SpecUtf8 ParserProofs RootProofs RfcProofs SpecWrite WriterProofs PropWrite SpecStack FileModel FileProofs WriteFailModel SpecCrash WriteFailProofs.

(** The text that a complete Write puts into the file. *)
Definition full (root : option value) (n : nat) (c : Z) : list Z := text (snd (sd_write root n c)).

Definition plenty : nat -> bool := fun _ => false.

Lemma sd_write_follows (fails : nat -> bool) (root : option value) (n : nat) (c : Z) :
  match sd_write_f fails n c root with
  | (Some st, out) => sd_write root n c = (st, out)
  | (None, out) => exists v st more k, root = Some v /\ sd_write root n c = (st, out ++ more) /\ fails k = true /\ (4 * k < n * levels v)%nat
  end.
Proof.
  destruct root as [v|]; [|reflexivity]. unfold sd_write_f, sd_write.
  assert (H0 : inv (Ind [] 0 0)) by (unfold inv; cbn; lia).
  pose proof (write_follow fails n c v (Ind [] 0 0) H0) as H. cbn [chars length] in H.
  destruct (write_f fails n c v (Ind [] 0 0)) as [st out a|out].
  - destruct H as (E & _). now rewrite E.
  - destruct H as (st & more & arr & k & E & Hk & B). rewrite E. exists v, st, more, k. auto.
Qed.

(** ** C101: a program that ends while it writes leaves the old document, the new one or
    a file that Parse rejects.

    It does not. A document of the same shape is written over the old one, and what is
    left is a third document, [3,2]; and from the number 123 in a new file is left 12. *)
Theorem C101_refuted :
  (exists old new mix writes v v' v'', ~ In None writes /\
     full (Some v) 0 32 = old /\ full (Some v') 0 32 = new /\ interrupted plenty (Some v') old writes 0 32 = mix /\
     sd_parse None (old ++ [0]) = Ret (PR kOk 0 0, Some v) /\ sd_parse None (new ++ [0]) = Ret (PR kOk 0 0, Some v') /\
     sd_parse None (mix ++ [0]) = Ret (PR kOk 0 0, Some v'') /\ v'' <> v /\ v'' <> v' /\
     old = `"[" ++ 10 :: `"1," ++ 10 :: `"2" ++ 10 :: `"]" /\
     new = `"[" ++ 10 :: `"3," ++ 10 :: `"4" ++ 10 :: `"]" /\
     mix = `"[" ++ 10 :: `"3," ++ 10 :: `"2" ++ 10 :: `"]") /\
  (exists writes v v', ~ In None writes /\ full (Some v) 0 32 = `"123" /\
     interrupted plenty (Some v) [] writes 0 32 = `"12" /\
     sd_parse None (`"12" ++ [0]) = Ret (PR kOk 0 0, Some v') /\ v' <> v).
Proof.
  split.
  - exists (`"[" ++ 10 :: `"1," ++ 10 :: `"2" ++ 10 :: `"]"), (`"[" ++ 10 :: `"3," ++ 10 :: `"4" ++ 10 :: `"]"),
      (`"[" ++ 10 :: `"3," ++ 10 :: `"2" ++ 10 :: `"]"), [Some 2%nat; Some 1%nat].
    exists (match sd_parse None (`"[1,2]" ++ [0]) with Ret (_, Some v) => v | _ => VNull end).
    exists (match sd_parse None (`"[3,4]" ++ [0]) with Ret (_, Some v) => v | _ => VNull end).
    exists (match sd_parse None (`"[3,2]" ++ [0]) with Ret (_, Some v) => v | _ => VNull end).
    split; [cbn; intuition discriminate|]. do 6 (split; [vm_compute; reflexivity|]).
    split; [vm_compute; discriminate|]. split; [vm_compute; discriminate|]. auto.
  - exists [Some 2%nat].
    exists (match sd_parse None (`"123" ++ [0]) with Ret (_, Some v) => v | _ => VNull end).
    exists (match sd_parse None (`"12" ++ [0]) with Ret (_, Some v) => v | _ => VNull end).
    split; [cbn; intuition discriminate|]. do 3 (split; [vm_compute; reflexivity|]). vm_compute. discriminate.
Qed.
Print Assumptions C101_refuted.

(** What there is, for every document, file, split of the writes, end of the program and
    exhaustion of memory, when no write fails: the first bytes of the new text and then
    the bytes of the old file behind them. *)
Theorem C101_overwritten_partial (fails : nat -> bool) (root : option value) (old : list Z) (writes : list (option nat)) (n : nat) (c : Z) :
  ~ In None writes ->
  exists b, (b <= length (full root n c))%nat /\ interrupted fails root old writes n c = overwritten b (full root n c) old.
Proof.
  intros HN. unfold interrupted.
  destruct (chunks_until_spec (snd (sd_write_f fails n c root)) writes old 0 (Nat.le_0_l _)) as (s & -> & _ & Hs).
  destruct (Hs HN) as (q & Eq). pose proof (sd_write_follows fails root n c) as F.
  assert (X : exists r, full root n c = s ++ r).
  { destruct (sd_write_f fails n c root) as [[st|] out]; cbn [snd] in Eq; unfold full, text.
    - rewrite F. exists q. exact Eq.
    - destruct F as (v & st & more & k & _ & -> & _). cbn [snd]. rewrite concat_app, Eq. exists (q ++ concat more). now rewrite app_assoc. }
  destruct X as (r & X). exists (length s). rewrite X, app_length. split; [lia|].
  unfold overwritten. rewrite firstn_app, firstn_all, Nat.sub_diag, firstn_O, app_nil_r. reflexivity.
Qed.
Print Assumptions C101_overwritten_partial.

(** Every one of them is left by some end of the program. *)
Theorem C101_every_point (root : option value) (old : list Z) (n : nat) (c : Z) (b : nat) : (b <= length (full root n c))%nat ->
  exists writes, ~ In None writes /\ interrupted plenty root old writes n c = overwritten b (full root n c) old.
Proof.
  intros Hb. unfold interrupted. pose proof (sd_write_follows plenty root n c) as F.
  assert (E : snd (sd_write_f plenty n c root) = snd (sd_write root n c)).
  { destruct (sd_write_f plenty n c root) as [[st|] out]; [now rewrite F|]. destruct F as (? & ? & ? & ? & _ & _ & Hk & _). discriminate. }
  rewrite E. destruct (chunks_until_reach (snd (sd_write root n c)) b old 0 (Nat.le_0_l _) Hb) as (ws & HN & Ew).
  exists ws. split; [exact HN|]. rewrite Ew, put_zero. unfold overwritten, full, text. f_equal.
  rewrite firstn_length. f_equal. unfold full, text in Hb. lia.
Qed.
Print Assumptions C101_every_point.

(** When writes fail as well: a first part of each piece of the text, then the bytes of
    the old file. *)
Theorem C101_cut_partial (fails : nat -> bool) (root : option value) (old : list Z) (writes : list (option nat)) (n : nat) (c : Z) :
  exists s, cut (snd (sd_write root n c)) s /\ interrupted fails root old writes n c = s ++ skipn (length s) old.
Proof.
  unfold interrupted. destruct (chunks_until_spec (snd (sd_write_f fails n c root)) writes old 0 (Nat.le_0_l _)) as (s & -> & Hc & _).
  exists s. split; [|reflexivity]. pose proof (sd_write_follows fails root n c) as F.
  destruct (sd_write_f fails n c root) as [[st|] out]; cbn [snd] in Hc.
  - now rewrite F.
  - destruct F as (v & st & more & k & _ & -> & _). cbn [snd]. clear - Hc.
    induction Hc as [|p q pieces s Hc IH]; [apply cut_none|]. cbn [app]. now constructor.
Qed.
Print Assumptions C101_cut_partial.

(** When it is not interrupted, it is what C48 says. *)
Theorem C101_complete (root : option value) (old : list Z) (writes : list (option nat)) (n : nat) (c : Z) st after :
  sd_write_file root (ASink old writes) n c = Ret (st, Some after) -> interrupted plenty root old writes n c = after.
Proof.
  intros E. unfold sd_write_file in E. unfold interrupted. pose proof (sd_write_follows plenty root n c) as F.
  destruct (sd_write_f plenty n c root) as [[st'|] out].
  2:{ destruct F as (? & ? & ? & ? & _ & _ & Hk & _). discriminate. }
  rewrite F in E. destruct (write_chunks writes out old 0) as [[[c1 o1] w1]| |] eqn:W; try discriminate.
  injection E as _ <-. cbn [snd]. now rewrite (chunks_until_done _ _ _ _ _ W).
Qed.
Print Assumptions C101_complete.

(** An array or object with finite numbers and strings that need no escapes, written to
    a file that is not longer than what has been written of it: Parse rejects the file,
    or Write was complete. *)
Lemma full_val (v : value) (j : jv) (n : nat) (c : Z) :
  represents v j -> wf_value v -> tokens lib_plain finite_number (normal j) -> ws (repeat c n) -> lib_val (full (Some v) n c) (normal j).
Proof.
  intros Hr Hw Ht Hc. destruct (sd_write_layout v j n c Hr Hw) as (out & E & C). unfold full. rewrite E. cbn [snd]. rewrite C.
  apply (layout_gval lib_plain finite_number); auto; [| |constructor].
  - intros s (cps & HF & ->). apply plain_body. exact HF.
  - intros d H. apply core_num_lib. apply snprintf_core. exact H.
Qed.

Theorem C101_rejected_partial (v : value) (j : jv) (n : nat) (c : Z) (old : list Z) (b : nat) :
  represents v j -> wf_value v -> tokens lib_plain finite_number (normal j) -> ws (repeat c n) -> container j ->
  (length old <= b < length (full (Some v) n c))%nat ->
  forall root r after, sd_parse root (overwritten b (full (Some v) n c) old ++ [0]) = Ret (r, after) -> pr_status r <> kOk.
Proof.
  intros Hr Hw Ht Hc Hj [Hb Hb'] root r after E. unfold overwritten in E. rewrite (skipn_all2 old Hb), app_nil_r in E.
  pose proof (full_val v j n c Hr Hw Ht Hc) as H.
  eapply part_rejected; [exact H| |exact Hb'|exact (lib_val_bytes _ _ H)|exact E]. destruct j; cbn in *; auto.
Qed.
Print Assumptions C101_rejected_partial.

(** So for a new file: at every point it is rejected, or holds the whole text; memory may
    run out. *)
Theorem C101_new_file_partial (fails : nat -> bool) (v : value) (j : jv) (n : nat) (c : Z) (writes : list (option nat)) :
  represents v j -> wf_value v -> tokens lib_plain finite_number (normal j) -> ws (repeat c n) -> container j -> ~ In None writes ->
  let f := interrupted fails (Some v) [] writes n c in
  f = full (Some v) n c \/ (forall root r after, sd_parse root (f ++ [0]) = Ret (r, after) -> pr_status r <> kOk).
Proof.
  intros Hr Hw Ht Hc Hj HN f. destruct (C101_overwritten_partial fails (Some v) [] writes n c HN) as (b & Hb & E).
  destruct (Nat.eq_dec b (length (full (Some v) n c))) as [->|Hne].
  - left. unfold f. rewrite E. unfold overwritten. now rewrite firstn_all, skipn_nil, app_nil_r.
  - right. intros root r after Er. unfold f in Er. rewrite E in Er.
    apply (C101_rejected_partial v j n c [] b Hr Hw Ht Hc Hj ltac:(cbn [length]; lia) root r after Er).
Qed.
Print Assumptions C101_new_file_partial.

(** Writing a document over its own text is safe. *)
Theorem C101_same_partial (fails : nat -> bool) (root : option value) (rest : list Z) (writes : list (option nat)) (n : nat) (c : Z) :
  ~ In None writes -> interrupted fails root (full root n c ++ rest) writes n c = full root n c ++ rest.
Proof.
  intros HN. destruct (C101_overwritten_partial fails root (full root n c ++ rest) writes n c HN) as (b & Hb & ->).
  unfold overwritten. rewrite skipn_app. replace (b - length (full root n c))%nat with 0%nat by lia. cbn [skipn].
  rewrite app_assoc, firstn_skipn. reflexivity.
Qed.
Print Assumptions C101_same_partial.

Definition crash_value : value := VArray [VString (`"a"); VArray [VNull; VBool true]].
Example C101_instance :
  (let j := JArr [JStr (`"a"); JArr [JNull; JBool true]] in
   represents crash_value j /\ tokens lib_plain finite_number (normal j) /\ container j) /\
  wf_value crash_value /\ ws (repeat 32 2) /\
  full (Some crash_value) 1 32 = `"[" ++ 10 :: `" ""a""," ++ 10 :: `" [" ++ 10 :: `"  null," ++ 10 :: `"  true" ++ 10 :: `" ]" ++ 10 :: `"]" /\
  interrupted plenty (Some crash_value) (`"old file") [Some 1%nat; Some 5%nat; Some 2%nat] 1 32 = `"[" ++ 10 :: `"  file" /\
  interrupted (fun k => Nat.leb 0 k) (Some crash_value) (`"old file") [Some 1%nat; Some 5%nat; Some 2%nat] 1 32 = `"[" ++ 10 :: `"d file".
Proof.
  split; [|split; [|split; [|split; [|split]]]]; [| | |vm_compute; reflexivity|vm_compute; reflexivity|vm_compute; reflexivity].
  - split; [|split; [|exact I]].
    + repeat constructor.
    + cbn [normal map]. constructor. constructor; [constructor|].
      * exists [97]. split; [|reflexivity]. constructor; [|constructor]. unfold lib_raw, code_point. lia.
      * repeat constructor.
  - constructor. constructor; [constructor; constructor; [reflexivity|constructor]|]. repeat constructor.
  - repeat constructor; unfold wsc; lia.
Qed.

(** ** C102: Write returns a status whatever allocation fails.

    It does not: for every array or object, with any indentation, when the first request
    fails, the program ends, after two bytes have been written over the file. *)
Theorem C102_refuted (fails : nat -> bool) (v : value) (n : nat) (c : Z) (old : list Z) : fails 0%nat = true -> (1 <= n)%nat ->
  match v with VArray _ | VObject _ _ => True | _ => False end ->
  exists b, (b = 91 \/ b = 123) /\ sd_write_f fails n c (Some v) = (None, [[b; 10]]) /\
    interrupted fails (Some v) old [Some 2%nat] n c = b :: 10 :: skipn 2 old.
Proof.
  intros F Hn Hv. destruct n as [|n]; [lia|].
  assert (E : forall b e body, bracketed fails (S n) c b e body (Ind [] 0 0) = Died [[b; 10]]).
  { intros b e body. unfold bracketed. cbn [expand_f]. unfold append_f. cbn [chars room asked length]. rewrite F. reflexivity. }
  destruct v as [s|d|b| |l|m order]; try contradiction; [exists 91|exists 123]; (split; [auto|]);
    unfold interrupted, sd_write_f; cbn [write_f]; rewrite E; split; reflexivity.
Qed.
Print Assumptions C102_refuted.

(** What is true: for every pattern of failing requests, either Write returns, and then
    with the status and the WriteFile calls it has with enough memory; or the program
    ends after the first of these calls, and one of the first requests has failed: the number
    of requests before it is less than a quarter of the greatest indentation. *)
Theorem C102_partial (fails : nat -> bool) (root : option value) (n : nat) (c : Z) :
  (exists st out, sd_write_f fails n c root = (Some st, out) /\ sd_write root n c = (st, out)) \/
  (exists v st out more k, root = Some v /\ sd_write_f fails n c root = (None, out) /\ sd_write root n c = (st, out ++ more) /\
     fails k = true /\ (4 * k < n * levels v)%nat).
Proof.
  pose proof (sd_write_follows fails root n c) as F. destruct (sd_write_f fails n c root) as [[st|] out].
  - left. eauto.
  - right. destruct F as (v & st & more & k & E & Ew & Hk & B). exists v, st, out, more, k. auto.
Qed.
Print Assumptions C102_partial.

(** So Write returns when those requests are granted: always, when the indentation is 0,
    or the document has no array or object at the root. *)
Theorem C102_enough_memory (fails : nat -> bool) (v : value) (n : nat) (c : Z) :
  (forall k, (4 * k < n * levels v)%nat -> fails k = false) \/ match v with VArray _ | VObject _ _ => False | _ => True end ->
  exists st out, sd_write_f fails n c (Some v) = (Some st, out) /\ sd_write (Some v) n c = (st, out).
Proof.
  intros [H|H].
  - destruct (C102_partial fails (Some v) n c) as [X|(v' & st & out & more & k & [= <-] & _ & _ & Hk & B)]; [exact X|].
    rewrite (H k B) in Hk. discriminate.
  - destruct v; try contradiction; do 2 eexists; split; reflexivity.
Qed.
Print Assumptions C102_enough_memory.

Example C102_instance :
  sd_write_f (fun k => Nat.eqb k 1) 2 32 (Some (VArray [VArray [VArray [VNull]]])) =
    (None, [[91; 10]; [32; 32]; [91; 10]; [32; 32; 32; 32]; [91; 10]]) /\
  levels (VArray [VArray [VArray [VNull]]]) = 4%nat /\
  (forall k, (4 * k < 2 * 4)%nat -> (fun k => Nat.leb 2 k) k = false) /\
  fst (sd_write_f (fun k => Nat.leb 2 k) 2 32 (Some (VArray [VArray [VArray [VNull]]]))) = Some kOk.
Proof. split; [reflexivity|]. split; [reflexivity|]. split; [intros [|[|k]] H; [reflexivity|reflexivity|lia]|reflexivity]. Qed.
