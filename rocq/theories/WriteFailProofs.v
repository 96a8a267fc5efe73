(** * Proofs about interrupted writes. *)

From Verif Require Import Base NumModel MapModel ParserModel WriterModel FileModel FileProofs SpecNum SpecMap SpecGrammar SpecMeaning
  SpecStack SpecCrash MapProofs LexProofs ParserProofs RootProofs WriterProofs UniqueProofs StackProofs WriteFailModel.

#[local] Arguments Nat.max : simpl never.

(** ** Requests that throw *)

Section Fails.
Variables (fails : nat -> bool) (n : nat) (c : Z).

Definition inv (a : indent) : Prop := 4 * Z.of_nat (asked a) <= room a.

(** [wf] does what [w] does, or ends the program after some of its WriteFile calls
    because of a request that throws; then the number of requests was at most a quarter
    of the length of the indentation, which has not [L] more units. *)
Definition follows (w : list Z -> wresult) (wf : indent -> wres) (L : nat) : Prop :=
  forall a, inv a ->
  match wf a with
  | Done st out a' => w (chars a) = (st, out, chars a') /\ inv a' /\ (st = kOk -> chars a' = chars a)
  | Died out => exists st more arr k, w (chars a) = (st, out ++ more, arr) /\ fails k = true /\
      (4 * k < length (chars a) + n * L)%nat
  end.

Lemma grown_more r m : r + 4 <= grown r m.
Proof. unfold grown. generalize (Z.land (r / 2 + 3) (Z.lnot 3)). intros x.
  eapply Z.le_trans; [|apply Z.le_max_r]. apply Z.add_le_mono_l. apply Z.le_max_r.
Qed.

Lemma append_spec a : inv a ->
  match append_f fails a c with
  | Some a' => chars a' = chars a ++ [c] /\ inv a'
  | None => exists k, fails k = true /\ (4 * k <= length (chars a))%nat
  end.
Proof.
  intros H. unfold append_f. destruct (Z.leb_spec (room a) (Z.of_nat (length (chars a)))) as [Hr|Hr].
  - destruct (fails (asked a)) eqn:F.
    + exists (asked a). split; [exact F|]. unfold inv in H. lia.
    + split; [reflexivity|]. unfold inv in *. cbn [asked room].
      pose proof (grown_more (room a) (Z.of_nat (length (chars a)) + 1)). lia.
  - split; [reflexivity|exact H].
Qed.

Lemma expand_spec m : forall a, inv a ->
  match expand_f fails m a c with
  | Some a' => chars a' = expand_array (chars a) c m /\ inv a'
  | None => exists k, fails k = true /\ (4 * k < length (chars a) + m)%nat
  end.
Proof.
  induction m as [|m IH]; intros a H; cbn [expand_f].
  - split; [|exact H]. unfold expand_array. cbn [repeat]. now rewrite app_nil_r.
  - pose proof (append_spec a H) as A. destruct (append_f fails a c) as [a1|].
    + destruct A as [E H1]. specialize (IH a1 H1). destruct (expand_f fails m a1 c) as [a2|].
      * destruct IH as [E2 H2]. split; [|exact H2]. rewrite E2, E. unfold expand_array. rewrite <- app_assoc. reflexivity.
      * destruct IH as (k & Hk & L). exists k. split; [exact Hk|]. rewrite E, app_length in L. cbn [length] in L. lia.
    + destruct A as (k & Hk & L). exists k. split; [exact Hk|]. lia.
Qed.

Lemma ok_dec st : {st = kOk} + {status_eqb st kOk = false /\ st <> kOk}.
Proof. destruct (status_eq_dec st kOk) as [->|H]; [now left|]. right. split; [|exact H]. unfold status_eqb. now destruct (status_eq_dec st kOk). Qed.

Lemma follows_mono w wf L L' : (L <= L')%nat -> follows w wf L -> follows w wf L'.
Proof.
  intros HL H a Ha. specialize (H a Ha). destruct (wf a) as [st out a'|out]; [exact H|].
  destruct H as (st & more & arr & k & E & Hk & B). exists st, more, arr, k. split; [exact E|]. split; [exact Hk|].
  assert (n * L <= n * L')%nat by (apply Nat.mul_le_mono_l; exact HL). lia.
Qed.

Lemma elements_follow L : forall ws fs, Forall2 (fun w wf => follows w wf L) ws fs ->
  follows (write_elements ws) (elements_f fs) L.
Proof.
  induction 1 as [|w wf ws fs Hw HF IH]; intros a Ha; [cbn; auto|].
  cbn [elements_f write_elements]. specialize (Hw a Ha). destruct (wf a) as [st out a1|out].
  - destruct Hw as (E & H1 & Hc). rewrite E. destruct (ok_dec st) as [->|[N N']].
    + cbn [negb status_eqb status_eq_dec]. specialize (Hc eq_refl). specialize (IH a1 H1). rewrite Hc in *.
      assert (Ec : comma fs = comma ws) by (destruct HF; reflexivity).
      destruct (elements_f fs a1) as [st' out' a2|out'].
      * destruct IH as (E2 & H2 & Hc2). cbn [after]. rewrite E2, Ec. split; [|auto].
        cbn [app]. f_equal. f_equal. f_equal. rewrite <- app_assoc. reflexivity.
      * destruct IH as (st' & more & arr & k & E2 & Hk & B). cbn [after]. rewrite E2, Ec.
        exists st', more, arr, k. split; [|auto]. f_equal. f_equal. cbn [app]. f_equal. rewrite <- !app_assoc. reflexivity.
    + rewrite N. cbn [negb after]. split; [reflexivity|]. split; [exact H1|]. intros ->. congruence.
  - destruct Hw as (st & more & arr & k & E & Hk & B). rewrite E. cbn [after].
    destruct (negb (status_eqb st kOk)).
    + exists st, more, arr, k. split; [reflexivity|auto].
    + destruct (write_elements ws arr) as [[st' out'] arr2]. exists st', (more ++ comma ws :: [10] :: out'), arr2, k.
      split; [|auto]. cbn [app]. rewrite <- !app_assoc. reflexivity.
Qed.

Lemma members_follow L (m : tree value) order :
  (forall k v, In (k, v) (elements m) -> follows (write n c v) (write_f fails n c v) L) ->
  follows (write_members (map_tree (write n c) m) order) (members_f (map_tree (write_f fails n c) m) order) L.
Proof.
  intros Hm. induction order as [|name order IH]; intros a Ha; [cbn; auto|].
  cbn [members_f write_members]. rewrite !find_named_map. destruct (find_named m name) as [[k v]|] eqn:F; cbn [option_map fst snd].
  2:{ split; [reflexivity|]. split; [exact Ha|]. discriminate. }
  apply find_named_in in F. pose proof (Hm k v F a Ha) as Hw. destruct (write_f fails n c v a) as [st out a1|out].
  - destruct Hw as (E & H1 & Hc). rewrite E. destruct (ok_dec st) as [->|[N N']].
    + cbn [negb status_eqb status_eq_dec]. specialize (Hc eq_refl). specialize (IH a1 H1). rewrite Hc in *.
      destruct (members_f (map_tree (write_f fails n c) m) order a1) as [st' out' a2|out'].
      * destruct IH as (E2 & H2 & Hc2). cbn [after]. rewrite E2. split; [|auto].
        f_equal. f_equal. rewrite <- !app_assoc. reflexivity.
      * destruct IH as (st' & more & arr & q & E2 & Hk & B). cbn [after]. rewrite E2.
        exists st', more, arr, q. split; [|auto]. f_equal. f_equal. rewrite <- !app_assoc. reflexivity.
    + rewrite N. cbn [negb after]. split; [reflexivity|]. split; [exact H1|]. intros ->. congruence.
  - destruct Hw as (st & more & arr & q & E & Hk & B). rewrite E. cbn [after].
    destruct (negb (status_eqb st kOk)).
    + exists st, more, arr, q. split; [|auto]. rewrite <- ?app_assoc. reflexivity.
    + destruct (write_members (map_tree (write n c) m) order arr) as [[st' out'] arr2].
      exists st', (more ++ comma order :: [10] :: out'), arr2, q. split; [|auto]. rewrite <- !app_assoc. reflexivity.
Qed.

Lemma bracketed_follow b e L w wf : follows w wf L ->
  follows (fun arr => let '(st, out, arr1) := w (expand_array arr c n) in
             if negb (status_eqb st kOk) then (st, [b; 10] :: out, arr1)
             else let arr2 := shrink_array arr1 n in (kOk, [b; 10] :: out ++ [arr2; [e]], arr2))
          (bracketed fails n c b e wf) (S L).
Proof.
  intros Hw a Ha. unfold bracketed. pose proof (expand_spec n a Ha) as X. destruct (expand_f fails n a c) as [a1|].
  - destruct X as [E H1]. specialize (Hw a1 H1). rewrite E in Hw. destruct (wf a1) as [st out a2|out].
    + destruct Hw as (Ew & H2 & Hc). rewrite Ew. destruct (ok_dec st) as [->|[N N']].
      * cbn [negb status_eqb status_eq_dec after]. unfold shrink_f. cbn [chars]. split; [reflexivity|]. split; [exact H2|].
        intros _. rewrite (Hc eq_refl). apply shrink_expand.
      * rewrite N. cbn [negb after]. split; [reflexivity|]. split; [exact H2|]. intros ->. congruence.
    + destruct Hw as (st & more & arr & k & Ew & Hk & B). rewrite Ew. cbn [after].
      unfold expand_array in B. rewrite app_length, repeat_length in B.
      destruct (negb (status_eqb st kOk)).
      * exists st, more, arr, k. split; [reflexivity|]. split; [exact Hk|]. lia.
      * cbv zeta. exists kOk, (more ++ [shrink_array arr n; [e]]), (shrink_array arr n), k. split; [|split; [exact Hk|lia]].
        rewrite <- !app_assoc. reflexivity.
  - destruct X as (k & Hk & B). destruct (w (expand_array (chars a) c n)) as [[st out] arr1]. cbn [after].
    destruct (negb (status_eqb st kOk)).
    + exists st, out, arr1, k. split; [reflexivity|]. split; [exact Hk|]. lia.
    + cbv zeta. exists kOk, (out ++ [shrink_array arr1 n; [e]]), (shrink_array arr1 n), k. split; [reflexivity|]. split; [exact Hk|]. lia.
Qed.

Lemma write_follow v : follows (write n c v) (write_f fails n c v) (levels v).
Proof.
  induction v as [s|d|b| |l IH|m order IH] using value_induct; try (intros a Ha; cbn; auto; fail).
  - cbn [write write_f levels]. apply bracketed_follow. apply elements_follow.
    cut (forall L, (list_max levels l <= L)%nat -> Forall2 (fun w wf => follows w wf L) (map (write n c) l) (map (write_f fails n c) l)); [auto|].
    intros L.
    induction IH as [|x l Hx _ IHl]; intros HL; cbn [map list_max] in *; constructor.
    + eapply follows_mono; [|exact Hx]. lia.
    + apply IHl. fold (@list_max value levels) in HL. lia.
  - rewrite write_obj. cbn [write_f levels]. apply bracketed_follow. apply members_follow.
    assert (H : (map_max levels m <= map_max levels m)%nat) by lia. rewrite map_max_le in H.
    pose proof (tall_and _ _ _ IH H) as T. rewrite tall_elements in T.
    intros k v Hin. destruct (T k v Hin) as [Hv Hl]. eapply follows_mono; [exact Hl|exact Hv].
Qed.
End Fails.

(** ** Writes that fail or stop *)

Lemma loop_until_spec writes : forall data contents offset, (offset <= length contents)%nat ->
  exists p q, data = p ++ q /\ fst (loop_until writes data contents offset) = put contents offset p /\
    (forall o ws, snd (loop_until writes data contents offset) = Some (o, ws) ->
       o = (offset + length p)%nat /\ (~ In None writes -> q = [] /\ ~ In None ws)).
Proof.
  induction writes as [|[k|] writes IH]; intros [|x data] contents offset HO.
  - exists [], []. rewrite put_nil by auto. split; [reflexivity|]. split; [reflexivity|]. cbn. intros o ws [= <- <-]. split; [lia|auto].
  - exists [], (x :: data). rewrite put_nil by auto. split; [reflexivity|]. split; [reflexivity|]. discriminate.
  - exists [], []. rewrite put_nil by auto. split; [reflexivity|]. split; [reflexivity|]. cbn [loop_until snd]. intros o ws [= <- <-]. cbn [length]. split; [lia|auto].
  - set (d := x :: data) in *. set (m := Nat.min k (length d)).
    change (loop_until (Some k :: writes) d contents offset) with
      (loop_until writes (skipn m d) (put contents offset (firstn m d)) (offset + m)).
    assert (Hm : length (firstn m d) = m) by (rewrite firstn_length; unfold m; lia).
    destruct (IH (skipn m d) (put contents offset (firstn m d)) (offset + m)%nat) as (p & q & E & Ep & Es).
    { pose proof (put_length contents offset (firstn m d) HO). rewrite Hm in *. auto. }
    exists (firstn m d ++ p), q. split; [now rewrite <- app_assoc, <- E, firstn_skipn|]. split.
    + rewrite Ep. rewrite <- Hm at 2. now rewrite put_put.
    + intros o ws H. destruct (Es o ws H) as [-> Hq]. split; [rewrite app_length, Hm; lia|].
      intros HN. apply Hq. intros Hin. apply HN. now right.
  - exists [], []. rewrite put_nil by auto. split; [reflexivity|]. split; [reflexivity|]. cbn [loop_until snd]. intros o ws [= <- <-]. cbn [length]. split; [lia|].
    intros HN. split; [reflexivity|]. intros Hin. apply HN. exact Hin.
  - exists [], (x :: data). rewrite put_nil by auto. split; [reflexivity|]. split; [reflexivity|]. cbn [loop_until snd]. intros o ws [= <- <-]. cbn [length]. split; [lia|].
    intros HN. exfalso. apply HN. now left.
Qed.

Lemma cut_none pieces : cut pieces [].
Proof. induction pieces as [|x pieces IH]; [constructor|]. exact (cut_cons [] x pieces [] IH). Qed.

Lemma chunks_until_spec chunks : forall writes contents offset, (offset <= length contents)%nat ->
  exists s, chunks_until writes chunks contents offset = put contents offset s /\ cut chunks s /\
    (~ In None writes -> exists q, concat chunks = s ++ q).
Proof.
  induction chunks as [|d chunks IH]; intros writes contents offset HO; cbn [chunks_until].
  - exists []. rewrite put_nil by auto. split; [reflexivity|]. split; [constructor|]. intros _. exists []. reflexivity.
  - destruct (loop_until_spec writes d contents offset HO) as (p & q & -> & Ep & Es).
    destruct (loop_until writes (p ++ q) contents offset) as [contents' [[o ws]|]]; cbn [fst snd] in *.
    + destruct (Es o ws eq_refl) as [-> Hq]. subst contents'.
      destruct (IH ws (put contents offset p) (offset + length p)%nat) as (s & E & C & Hs); [now apply put_length|].
      exists (p ++ s). rewrite E, put_put by auto. split; [reflexivity|]. split; [now constructor|].
      intros HN. destruct (Hq HN) as [-> HN']. destruct (Hs HN') as (r & Er). exists r. cbn [concat]. rewrite Er, app_nil_r. now rewrite app_assoc.
    + exists p. subst contents'. split; [reflexivity|]. split.
      * rewrite <- (app_nil_r p) at 2. constructor. apply cut_none.
      * intros _. exists (q ++ concat chunks). cbn [concat]. now rewrite <- app_assoc.
Qed.

(** Without an interruption it is the Write of FileModel.v. *)
Lemma loop_until_done writes : forall data contents offset r, write_loop writes data contents offset = Ret r ->
  loop_until writes data contents offset = (fst (fst r), Some (snd (fst r), snd r)).
Proof.
  induction writes as [|[k|] writes IH]; intros [|x data] contents offset r E; cbn in E; try discriminate;
    try (injection E as <-; reflexivity).
  cbn [loop_until]. apply IH. exact E.
Qed.

Lemma chunks_until_done chunks : forall writes contents offset r, write_chunks writes chunks contents offset = Ret r ->
  chunks_until writes chunks contents offset = fst (fst r).
Proof.
  induction chunks as [|d chunks IH]; intros writes contents offset r E; cbn [write_chunks chunks_until] in *.
  - injection E as <-. reflexivity.
  - destruct (write_loop writes d contents offset) as [[[c1 o1] w1]| |] eqn:W; try discriminate.
    rewrite (loop_until_done _ _ _ _ _ W). cbn [fst snd]. apply IH. exact E.
Qed.

(** Every first part is left by some sequence of writes. *)
Lemma loop_until_one writes d contents offset : d <> [] ->
  loop_until (Some (length d) :: writes) d contents offset = (put contents offset d, Some ((offset + length d)%nat, writes)).
Proof.
  intros Hd. destruct d as [|x d]; [congruence|]. set (e := x :: d).
  change (loop_until (Some (length e) :: writes) e contents offset) with
    (loop_until writes (skipn (Nat.min (length e) (length e)) e) (put contents offset (firstn (Nat.min (length e) (length e)) e)) (offset + Nat.min (length e) (length e))).
  rewrite Nat.min_id, skipn_all, firstn_all. destruct writes; reflexivity.
Qed.

Lemma chunks_until_reach chunks : forall b contents offset, (offset <= length contents)%nat -> (b <= length (concat chunks))%nat ->
  exists writes, ~ In None writes /\ chunks_until writes chunks contents offset = put contents offset (firstn b (concat chunks)).
Proof.
  induction chunks as [|d chunks IH]; intros b contents offset HO Hb.
  - exists []. cbn [concat] in *. rewrite firstn_nil, put_nil by auto. auto.
  - cbn [concat] in *. destruct (le_lt_dec (length d) b) as [L|L].
    + rewrite app_length in Hb. destruct (IH (b - length d)%nat (put contents offset d) (offset + length d)%nat) as (ws & HN & E); [now apply put_length|lia|].
      rewrite firstn_app, (firstn_all2 d) by exact L. rewrite <- put_put by exact HO. rewrite <- E.
      destruct d as [|x d].
      * exists ws. split; [exact HN|]. cbn [chunks_until]. destruct ws; cbn [loop_until length]; rewrite put_nil, Nat.add_0_r by auto; reflexivity.
      * exists (Some (length (x :: d)) :: ws). split; [intros [H|H]; [discriminate|auto]|]. cbn [chunks_until].
        rewrite loop_until_one by discriminate. reflexivity.
    + rewrite firstn_app. replace (b - length d)%nat with 0%nat by lia. cbn [firstn]. rewrite app_nil_r.
      destruct d as [|x d]; [cbn [length] in L; lia|]. set (e := x :: d) in *.
      exists [Some b]. split; [intros [H|[]]; discriminate|]. cbn [chunks_until].
      change (loop_until [Some b] e contents offset) with
        (loop_until [] (skipn (Nat.min b (length e)) e) (put contents offset (firstn (Nat.min b (length e)) e)) (offset + Nat.min b (length e))).
      replace (Nat.min b (length e)) with b by lia.
      destruct (skipn b e) as [|y r] eqn:S.
      * apply (f_equal (@length Z)) in S. rewrite skipn_length in S. cbn [length] in S. lia.
      * reflexivity.
Qed.

(** ** Beginnings of texts *)

(** A text of an array or object has no proper beginning that is a text. *)
Lemma container_prefix s j : lib_val s j -> container j -> forall s' j' r, lib_val s' j' -> s = s' ++ r -> r = [].
Proof.
  intros H Hc s' j' r H' E.
  assert (Hl : forall (x : Z) (t t' : list Z), t ++ [x] = t' ++ x :: r -> t = t' -> r = []).
  { intros x t t' E1 ->. apply app_inv_head in E1. now injection E1. }
  unfold lib_val in *. destruct H; cbn [container] in Hc; try contradiction; destruct H'; try (simpl in E; discriminate); try other_head E;
    simpl in E; injection E as E; rewrite <- !app_assoc in E; simpl in E.
  - eapply Hl; [exact E|]. apply ws_unique in E; auto; try (apply nonws_cons; notws). tauto.
  - destruct (gelems_head _ _ H0) as (w1 & c & r0 & -> & Hw1 & Hc1 & H93). rewrite <- app_assoc in E. simpl in E.
    apply ws_unique in E; auto; try (apply nonws_cons; auto; notws). destruct E as [_ E]. congruence.
  - destruct (gelems_head _ _ H) as (w1 & c & r0 & -> & Hw1 & Hc1 & H93). rewrite <- app_assoc in E. simpl in E.
    apply ws_unique in E; auto; try (apply nonws_cons; auto; notws). destruct E as [_ E]. congruence.
  - eapply Hl; [exact E|]. destruct (proj1 (proj2 unambiguous) _ _ H _ _ _ _ H0 E) as [-> _]. reflexivity.
  - eapply Hl; [exact E|]. apply ws_unique in E; auto; try (apply nonws_cons; notws). tauto.
  - destruct (gmembers_head _ _ H0) as (w1 & r0 & -> & Hw1). rewrite <- app_assoc in E. simpl in E.
    apply ws_unique in E; auto; try (apply nonws_cons; auto; notws). destruct E as [_ E]. discriminate.
  - destruct (gmembers_head _ _ H) as (w1 & r0 & -> & Hw1). rewrite <- app_assoc in E. simpl in E.
    apply ws_unique in E; auto; try (apply nonws_cons; auto; notws). destruct E as [_ E]. discriminate.
  - eapply Hl; [exact E|]. destruct (proj2 (proj2 unambiguous) _ _ H _ _ _ _ H0 E) as [-> _]. reflexivity.
Qed.

Lemma part_rejected s j b : lib_val s j -> container j -> (b < length s)%nat -> bytes s ->
  forall root r after, sd_parse root (firstn b s ++ [0]) = Ret (r, after) -> pr_status r <> kOk.
Proof.
  intros H Hc Hb HB root [st l c] after E. cbn [pr_status]. intros ->.
  apply root_sound in E. 2:{ apply bytes_app. split; [now apply bytes_firstn|]. constructor; [unfold is_byte; lia|constructor]. }
  destruct E as (t & rest & j' & v & E & _ & _ & Hd & _).
  assert (Hn : nul_free (firstn b s)).
  { pose proof (proj1 lib_nul_free _ _ H) as Hn. rewrite <- (firstn_skipn b s) in Hn. apply Forall_app in Hn. tauto. }
  change [0] with (0 :: []) in E. apply zero_split in E; [|exact Hn|now apply (lib_doc_nul_free _ j')]. destruct E as [E _].
  destruct Hd as [w1 t w2 v' H1 H2 H3].
  assert (Es : s = w1 ++ t ++ w2 ++ skipn b s).
  { rewrite <- (firstn_skipn b s) at 1. rewrite E. rewrite <- !app_assoc. reflexivity. }
  assert (W : w1 = []).
  { destruct w1 as [|x w1]; [reflexivity|]. inversion H1; subst.
    destruct (gval_head _ _ H) as (y & r & Ey & Hy & _). rewrite Ey in Es. injection Es as -> _. contradiction. }
  subst w1. cbn [app] in Es. pose proof (container_prefix _ _ H Hc _ _ _ H2 Es) as Er.
  apply app_eq_nil in Er. destruct Er as [_ Er]. apply (f_equal (@length Z)) in Er. rewrite skipn_length in Er. cbn [length] in Er. lia.
Qed.

(** Texts are bytes. *)
Lemma ws_bytes w : ws w -> bytes w.
Proof. intros H. eapply Forall_impl; [|exact H]. unfold wsc, is_byte. intros; lia. Qed.

Lemma lib_num_bytes t d : lib_num t d -> bytes t.
Proof.
  intros H. destruct H as [sg neg w run pre suf n m e d Hsg Hw Hsw Hrun _ _ _ _ _ _].
  rewrite !bytes_app. split; [|split].
  - destruct Hsg; repeat constructor; unfold is_byte; lia.
  - now apply ws_bytes.
  - eapply Forall_impl; [|exact Hrun]. unfold float_char, digit, is_byte. intros; lia.
Qed.

Lemma lib_val_bytes t j : lib_val t j -> bytes t.
Proof.
  revert t j. apply (proj1 (A := forall t j, lib_val t j -> bytes t)
    (B := (forall t l, gelems lib_str lib_num t l -> bytes t) /\ (forall t l, gmembers lib_str lib_num t l -> bytes t))).
  unfold lib_val. apply (grammar_mind lib_str lib_num (fun t _ => bytes t) (fun t _ => bytes t) (fun t _ => bytes t)); intros;
    try (match goal with H : lib_str _ _ |- _ => apply lib_str_bytes in H; destruct H end);
    try (match goal with H : lib_num _ _ |- _ => apply lib_num_bytes in H end);
    repeat (match goal with H : ws _ |- _ => apply ws_bytes in H end);
    unfold bytes in *; repeat first [rewrite Forall_app | rewrite Forall_cons_iff]; repeat split; unfold is_byte; try lia; auto using Forall_nil.
Qed.
