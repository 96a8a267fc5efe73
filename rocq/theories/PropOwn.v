(** * Ownership of values and failing allocations: C41, C61-C63.

    [fails k] says whether the k-th request for memory throws. [live w] lists the
    value objects on the heap, [oids root] those reachable from the document.
    [holds w l] says that the objects alive are exactly those of [l], each once,
    and that numbers of objects are not used again; every state that a history
    reaches has this form (C61_histories). *)

From Coq Require Import Permutation.
From Verif Require Import Base TextModel NumModel MapModel ParserModel SpecUtf8 SpecNum SpecMap SpecGrammar SpecMeaning
  TextProofs MapProofs StrtodProofs RoundProofs LexProofs ParserProofs RootProofs WriterModel SpecWrite WriterProofs
  OwnModel SpecOwn OwnProofs OwnParse Str.

(** The world at the start, and one in which no request fails. *)
Definition start : world := World 0 [].
Definition never : nat -> bool := fun _ => false.
(** Only request k fails. *)
Definition only (k : nat) : nat -> bool := Nat.eqb k.

Lemma holds_start : holds start [].
Proof. repeat constructor. Qed.

Lemma never_faulty a b : ~ faulty never a b.
Proof. intros (k & _ & E). discriminate. Qed.

Ltac isbytes := unfold bytes, is_byte; repeat constructor; vm_compute; congruence.

Lemma no_exception root buf st l c ov : bytes buf -> sd_parse root buf = Ret (PR st l c, ov) -> st <> kException.
Proof.
  intros HB H. destruct (le_lt_dec 3 (length buf)) as [HL|HL]; [|rewrite sd_short in H by auto; now injection H as <- _ _ _].
  destruct (Z.eq_dec (last buf 0) 0) as [E0|E0]; [|rewrite sd_open in H by auto; now injection H as <- _ _ _].
  apply last_terminated in E0; [|intros ->; simpl in HL; lia].
  destruct (root_spec root buf HB HL E0) as (w & u & text & st2 & ov' & _ & _ & _ & _ & _ & E & Hp).
  rewrite E in H. assert (st = st2) as ->.
  { unfold report in H. destruct (status_eq_dec st2 kOk) as [->|Hne]; [rewrite status_eqb_refl in H|rewrite status_eqb_neq in H by auto]; now injection H. }
  destruct ov' as [v|].
  - destruct Hp as (t & w2 & j & _ & _ & _ & _ & [[-> _]|[-> _]]); discriminate.
  - intros ->. unfold failed in Hp. simpl in Hp. intuition discriminate.
Qed.

(** ** What is kept of a value *)

Lemma kept_positive j : (1 <= kept j)%nat.
Proof. destruct j; cbn; lia. Qed.

Lemma kept_all j : (kept j <= all_values j)%nat /\ (kept j = all_values j <-> distinct j).
Proof.
  induction j as [s|d|b| |l IH|ms IH] using jv_induct; try (cbn; split; [lia|split; [constructor|auto]]).
  - assert (H : (list_sum (map kept l) <= list_sum (map all_values l))%nat /\
                (list_sum (map kept l) = list_sum (map all_values l) <-> Forall distinct l)).
    { induction IH as [|j l [H1 H2] _ [IH1 IH2]]; cbn; [split; [lia|split; auto]|]. split; [unfold list_sum in *; cbn; lia|].
      unfold list_sum in *. cbn [fold_right]. split.
      - intros E. constructor; [apply H2|apply IH2]; lia.
      - intros E. inversion E; subst. apply H2 in H3. apply IH2 in H4. lia. }
    cbn. destruct H as [H1 H2]. split; [lia|]. split.
    + intros E. constructor. apply H2. lia.
    + intros E. inversion E; subst. apply H2 in H0. lia.
  - assert (H : forall seen, (kept_members kept seen ms <= list_sum (map (fun m => all_values (snd m)) ms))%nat /\
                (kept_members kept seen ms = list_sum (map (fun m => all_values (snd m)) ms) <->
                 NoDup (map fst ms) /\ Forall (fun m => distinct (snd m)) ms /\ forall k, In k (map fst ms) -> ~ In k seen)).
    { induction IH as [|[k j] ms [H1 H2] _ IH']; intros seen.
      - cbn. split; [lia|]. split; [intros _; repeat constructor; auto|auto].
      - cbn [snd] in H1, H2. destruct (IH' (k :: seen)) as [I1 I2]. cbn [kept_members map fst snd]. unfold list_sum in *. cbn [fold_right].
        pose proof (kept_positive j) as Hp.
        destruct (in_dec _ k seen) as [Hin|Hin].
        + split; [lia|]. split; [lia|]. intros (_ & _ & Hk). exfalso. apply (Hk k); cbn; auto.
        + split; [lia|]. split.
          * intros E. assert (E1 : kept j = all_values j) by lia.
            match type of I2 with (?a = ?b <-> _) => assert (E2 : a = b) by lia end.
            apply H2 in E1. apply I2 in E2. destruct E2 as (G1 & G2 & G3).
            split; [constructor; auto; intros Hi; apply (G3 k); cbn; auto|]. split; [constructor; auto|].
            intros k' [<-|Hi]; auto. intros Hs. apply (G3 k'); cbn; auto.
          * intros (G1 & G2 & G3). inversion G1; subst. inversion G2; subst. cbn [snd] in *.
            assert (E1 : kept j = all_values j) by now apply H2.
            match type of I2 with (?a = ?b <-> _) => assert (E2 : a = b) end.
            { apply I2. split; [auto|]. split; [auto|]. intros k' Hi [<-|Hs]; [auto|]. apply (G3 k'); cbn; auto. }
            lia. }
    destruct (H []) as [H1 H2]. cbn. split; [lia|]. split.
    + intros E. assert (E' : kept_members kept [] ms = list_sum (map (fun m => all_values (snd m)) ms)) by lia.
      apply H2 in E'. destruct E' as (G1 & G2 & _). now constructor.
    + intros E. inversion E; subst. f_equal. apply H2. auto.
Qed.

(** ** C41: no value is leaked *)

(** False: of two members with the same name only the first is kept, and the value
    of the second stays on the heap, reachable from nowhere. *)
Theorem C41_refuted : exists buf root w,
  bytes buf /\ sd_parse_o never None buf start = Ret (PR kOk 0 0, root, w) /\ ~ Permutation (live w) (oids root).
Proof.
  exists (buf "{""a"":1,""a"":2}"). eexists _, _. split; [isbytes|]. split; [vm_compute; reflexivity|].
  intros H. apply Permutation_length in H. vm_compute in H. discriminate.
Qed.
Print Assumptions C41_refuted.

(** What is true of every accepted text, in every state, and whatever requests
    failed on the way: next to the objects of the document and those that had been
    lost before, exactly as many objects remain as the text has values that the
    document does not keep; so nothing is lost iff no object repeats a name. *)
Theorem C41_exact (fails : nat -> bool) (root : option node) (buf : list Z) (w : world) (old : list nat) :
  bytes buf -> holds w (oids root ++ old) ->
  forall l c root' w', sd_parse_o fails root buf w = Ret (PR kOk l c, root', w') ->
  exists t rest j n lost, buf = t ++ 0 :: rest /\ lib_doc t j /\ root' = Some n /\ represents (erase n) j /\
    Permutation (live w') (ids n ++ lost ++ old) /\
    length (ids n) = kept j /\ length lost = (all_values j - kept j)%nat /\ (lost = [] <-> distinct j).
Proof.
  intros HB H l c root' w' E.
  destruct (root_o_spec fails root buf w old HB H) as (st & ln & co & r & w2 & L & E2 & _ & H2 & _ & _ & Hok).
  rewrite E in E2. injection E2 as <- _ _ <- <-.
  destruct (Hok eq_refl) as (t & rest & j & n & G1 & G2 & -> & G3 & G4 & G5).
  exists t, rest, j, n, L. split; [auto|]. split; [auto|]. split; [auto|]. split; [auto|]. split; [apply H2|].
  split; [auto|]. split; [lia|]. destruct (kept_all j) as [_ <-]. split.
  - intros ->. cbn in G5. lia.
  - intros Ek. destruct L; [auto|]. cbn in G5. lia.
Qed.
Print Assumptions C41_exact.

(** Instance: three of the six values are lost, one of them an array. *)
Example C41_exact_instance : exists root w,
  sd_parse_o never None (buf "{""a"":1,""a"":[true],""a"":null,""b"":2}") start = Ret (PR kOk 0 0, root, w) /\
  length (oids root) = 3%nat /\ length (live w) = 6%nat.
Proof. eexists _, _. split; [vm_compute; reflexivity|]. split; reflexivity. Qed.

(** The property for texts in which no object repeats a name, accepted or not. *)
Theorem C41_no_leak_partial (root : option node) (buf : list Z) (w : world) :
  bytes buf -> ~ repeats buf -> holds w (oids root) ->
  exists r root' w', sd_parse_o never root buf w = Ret (r, root', w') /\
    Permutation (live w') (oids root') /\ NoDup (oids root') /\ holds w' (oids root').
Proof.
  intros HB HR H. rewrite <- (app_nil_r (oids root)) in H.
  destruct (root_o_spec never root buf w [] HB H) as (st & ln & co & r & w2 & L & E2 & _ & H2 & Hl & Hag & _).
  assert (HL : L = []).
  { destruct Hl as [?|[?| ->]]; [auto|contradiction|]. destruct Hag as [Hag|(_ & _ & F)]; [|now apply never_faulty in F].
    now apply no_exception in Hag. }
  subst L. rewrite app_nil_r in H2. exists (PR st ln co), r, w2. split; [auto|]. split; [apply H2|]. split; [|auto].
  destruct H2 as [[Hn _] Hp]. now apply (Permutation_NoDup Hp).
Qed.
Print Assumptions C41_no_leak_partial.

Fixpoint after_each (f : option node -> world -> Prop) (root : option node) (bufs : list (list Z)) (w : world) : Prop :=
  match bufs with
  | [] => f root w
  | buf :: bufs' => f root w /\ forall r root' w', sd_parse_o never root buf w = Ret (r, root', w') -> after_each f root' bufs' w'
  end.

(** So a document that only ever parsed such texts holds all objects alive after
    every call, and nothing is left when it has been destroyed. *)
Theorem C41_history_partial (bufs : list (list Z)) :
  Forall bytes bufs -> Forall (fun buf => ~ repeats buf) bufs ->
  after_each (fun root w => Permutation (live w) (oids root)) None bufs start /\
  exists rs root w w', parse_all never None bufs start = Ret (rs, root, w) /\ delete_root root w = Ret w' /\ live w' = [].
Proof.
  assert (HS : holds start (oids None)) by exact holds_start. revert HS. generalize start as w. generalize (@None node) as root.
  intros root w H HB HR. revert root w H. induction HB as [|buf bufs Hb HB IH]; intros root w H.
  - split; [apply H|]. exists [], root, w. destruct root as [n|].
    + rewrite <- (app_nil_r (oids (Some n))) in H. destruct (delete_ok n w [] H) as (w' & E & _ & [_ Hp]).
      exists w'. split; [auto|]. split; [exact E|]. symmetry in Hp. now apply Permutation_nil in Hp.
    + exists w. split; [auto|]. split; [auto|]. destruct H as [_ Hp]. symmetry in Hp. now apply Permutation_nil in Hp.
  - inversion HR; subst. destruct (C41_no_leak_partial root buf w Hb H2 H) as (r & root' & w' & E & _ & _ & H').
    destruct (IH H3 root' w' H') as (I1 & rs & root2 & w2 & w3 & I2 & I3 & I4). split.
    + split; [apply H|]. intros r2 root3 w4 E2. rewrite E in E2. injection E2 as <- <- <-. exact I1.
    + exists (r :: rs), root2, w2, w3. split; [|auto]. cbn [parse_all]. rewrite E. cbn [bind]. now rewrite I2.
Qed.
Print Assumptions C41_history_partial.

(** Instance: an accepted text, a text refused inside a nested object, one refused
    after the document, and an array that is refused without being read. *)
Definition texts : list (list Z) :=
  [buf "{""a"":[1,{""b"":null}],""b"":""x""}"; buf "[{""a"":[1,2],""b"":{""c"":3 4}}]"; buf "[1,2] 3"; [91; 93; 93]].

Example C41_history_instance : Forall bytes texts /\ exists rs root w w',
  parse_all never None texts start = Ret (rs, root, w) /\
  map pr_status rs = [kOk; kExpectedClosingCurlyBracesOrComma; kExpectedEndOfFile; kUnterminatedTextBuffer] /\
  length (live w) = 3%nat /\ delete_root root w = Ret w' /\ live w' = [].
Proof.
  split; [repeat apply Forall_cons; try apply Forall_nil; isbytes|].
  eexists _, _, _, _. split; [vm_compute; reflexivity|]. repeat split.
Qed.

(** ** C61: whatever allocations fail *)

(** Parse comes to an end without an undefined step (in particular no object is
    deleted twice or used after its end), the objects of the document are alive, and
    the outcome is the one without failures, or an error with no document. *)
Theorem C61_any_failure (fails : nat -> bool) (root : option node) (buf : list Z) (w : world) (old : list nat) :
  bytes buf -> holds w (oids root ++ old) ->
  exists st l c root' w' lost, sd_parse_o fails root buf w = Ret (PR st l c, root', w') /\
    holds w' (oids root' ++ lost ++ old) /\
    (sd_parse (option_map erase root) buf = Ret (PR st l c, option_map erase root') \/
     st <> kOk /\ root' = None /\ exists k, (tick w <= k < tick w')%nat /\ fails k = true).
Proof.
  intros HB H. destruct (root_o_spec fails root buf w old HB H) as (st & ln & co & r & w2 & L & E2 & _ & H2 & Hl & Hag & _).
  exists st, ln, co, r, w2, L. split; [auto|]. split; [auto|]. destruct Hag as [Hag|(G1 & G2 & G3)]; [auto|right].
  split; [destruct G2 as [->| ->]; discriminate|]. auto.
Qed.
Print Assumptions C61_any_failure.

(** The same for a document used again and again and then destroyed. *)
Theorem C61_histories (fails : nat -> bool) (bufs : list (list Z)) : Forall bytes bufs ->
  exists rs root w lost w', parse_all fails None bufs start = Ret (rs, root, w) /\ length rs = length bufs /\
    holds w (oids root ++ lost) /\ delete_root root w = Ret w' /\ Permutation (live w') lost.
Proof.
  intros HB. assert (HS : holds start (oids None ++ [])) by exact holds_start. revert HS.
  generalize start as w. generalize (@None node) as root. generalize (@nil nat) as old.
  induction HB as [|buf bufs Hb HB IH]; intros old root w H.
  - exists [], root, w, old. destruct root as [n|].
    + destruct (delete_ok n w old H) as (w' & E & _ & H'). exists w'. repeat split; auto; apply H || apply H'.
    + exists w. repeat split; auto; apply H.
  - destruct (root_o_spec fails root buf w old Hb H) as (st & ln & co & r & w2 & L & E2 & _ & H2 & _).
    destruct (IH _ _ _ H2) as (rs & root2 & w3 & lost & w4 & I1 & I2 & I3 & I4 & I5).
    exists (PR st ln co :: rs), root2, w3, lost, w4. cbn [parse_all]. rewrite E2. cbn [bind]. rewrite I1. cbn [bind length]. auto.
Qed.
Print Assumptions C61_histories.

(** Without failures the model is the parser of C01-C14. *)
Theorem C61_without_failures (root : option node) (buf : list Z) (w : world) (old : list nat) :
  bytes buf -> holds w (oids root ++ old) ->
  exists r root' w', sd_parse_o never root buf w = Ret (r, root', w') /\
    sd_parse (option_map erase root) buf = Ret (r, option_map erase root').
Proof.
  intros HB H. destruct (root_o_spec never root buf w old HB H) as (st & ln & co & r & w2 & L & E2 & _ & _ & _ & Hag & _).
  exists (PR st ln co), r, w2. split; [auto|]. destruct Hag as [Hag|(_ & _ & F)]; [auto|]. now apply never_faulty in F.
Qed.
Print Assumptions C61_without_failures.

(** Instance: each of the first forty requests fails in turn; a document is held iff
    the call succeeds, and some of the failures are survived. *)
Definition outcome (k : nat) : option (status * bool) :=
  match sd_parse_o (only k) None (buf "{""a"":[true,{""b"":null}],""c"":""x""}") start with
  | Ret (r, root, _) => Some (pr_status r, match root with Some _ => true | None => false end)
  | _ => None
  end.

Example C61_instance :
  Forall (fun o => o = Some (kOk, true) \/ o = Some (kException, false) \/ o = Some (kExpectedJsonValue, false)) (map outcome (seq 0 40)) /\
  In (Some (kException, false)) (map outcome (seq 0 40)) /\ In (Some (kExpectedJsonValue, false)) (map outcome (seq 0 40)).
Proof.
  split; [|split; vm_compute; auto 50].
  remember (map outcome (seq 0 40)) as l eqn:E. vm_compute in E. subst l. repeat (apply Forall_cons; [auto|]). apply Forall_nil.
Qed.

(** ** C62: a failed allocation is reported as kException *)

(** False: if memory for the object of a number, a boolean or a null cannot be had,
    the parser goes on to try an array and an object, and reports that there is no
    value. *)
Theorem C62_refuted : exists buf k l c w,
  sd_parse None buf = Ret (PR kOk 0 0, Some (VArray [VBool true])) /\
  sd_parse_o (only k) None buf start = Ret (PR kExpectedJsonValue l c, None, w).
Proof.
  exists (buf "[true]"). exists 7%nat. eexists _, _, _. split; vm_compute; reflexivity.
Qed.
Print Assumptions C62_refuted.

(** What is true: with an error that is not the one of the text itself, it is one of
    these two, and there is no document. *)
Theorem C62_status_partial (fails : nat -> bool) (root : option node) (buf : list Z) (w : world) (old : list nat) :
  bytes buf -> holds w (oids root ++ old) ->
  forall st l c root' w', sd_parse_o fails root buf w = Ret (PR st l c, root', w') ->
  sd_parse (option_map erase root) buf <> Ret (PR st l c, option_map erase root') ->
  (st = kException \/ st = kExpectedJsonValue) /\ root' = None.
Proof.
  intros HB H st l c root' w' E Hne.
  destruct (root_o_spec fails root buf w old HB H) as (st2 & ln & co & r & w2 & L & E2 & _ & _ & _ & Hag & _).
  rewrite E in E2. injection E2 as <- <- <- <- <-. destruct Hag as [?|(G1 & G2 & _)]; [contradiction|auto].
Qed.
Print Assumptions C62_status_partial.

(** ... and kException is reported for nothing else. *)
Theorem C62_exception_only_then (fails : nat -> bool) (root : option node) (buf : list Z) (w : world) (old : list nat) :
  bytes buf -> holds w (oids root ++ old) ->
  forall l c root' w', sd_parse_o fails root buf w = Ret (PR kException l c, root', w') ->
  exists k, (tick w <= k < tick w')%nat /\ fails k = true.
Proof.
  intros HB H l c root' w' E.
  destruct (root_o_spec fails root buf w old HB H) as (st2 & ln & co & r & w2 & L & E2 & _ & _ & _ & Hag & _).
  rewrite E in E2. injection E2 as <- <- <- <- <-. destruct Hag as [Hag|(_ & _ & F)]; [|auto].
  exfalso. apply no_exception in Hag; auto.
Qed.
Print Assumptions C62_exception_only_then.

(** Instance of both: the request for the object of the array fails. *)
Example C62_instance : exists w,
  sd_parse_o (only 4) None (buf "[true]") start = Ret (PR kException 1 1, None, w) /\
  sd_parse None (buf "[true]") = Ret (PR kOk 0 0, Some (VArray [VBool true])).
Proof. eexists. split; vm_compute; reflexivity. Qed.

(** ** C63: nothing is leaked when an allocation fails *)

(** False: an element that has been read is lost if the array cannot be made larger
    (and a member if its name cannot be stored). *)
Theorem C63_refuted : exists buf k l c w,
  ~ repeats buf /\ sd_parse_o (only k) None buf start = Ret (PR kException l c, None, w) /\ live w <> [].
Proof.
  exists (buf "[true]"). exists 8%nat. eexists _, _, _. split; [|split; [vm_compute; reflexivity|discriminate]].
  intros (b & t & ms & a & E & _).
  assert (Hin : In 123 (buf "[true]")) by (rewrite E; apply in_or_app; cbn; auto).
  vm_compute in Hin. intuition discriminate.
Qed.
Print Assumptions C63_refuted.

Theorem C63_member_refuted : exists buf k l c w,
  sd_parse_o never None buf start = Ret (PR kOk 0 0, Some (NObject 5 (Node Leaf `"a" (NNull 10) 0 Leaf) [`"a"]), World 14 [10; 5]%nat) /\
  sd_parse_o (only k) None buf start = Ret (PR kException l c, None, w) /\ live w = [10%nat].
Proof. exists (buf "{""a"":null}"). exists 11%nat. eexists _, _, _. split; [|split]; vm_compute; reflexivity. Qed.
Print Assumptions C63_member_refuted.

(** What is true: whatever fails, a call whose status is not kException leaks
    nothing unless the text repeats a name. *)
Theorem C63_no_leak_partial (fails : nat -> bool) (root : option node) (buf : list Z) (w : world) :
  bytes buf -> ~ repeats buf -> holds w (oids root) ->
  exists st l c root' w', sd_parse_o fails root buf w = Ret (PR st l c, root', w') /\
    (st <> kException -> Permutation (live w') (oids root') /\ holds w' (oids root')).
Proof.
  intros HB HR H. rewrite <- (app_nil_r (oids root)) in H.
  destruct (root_o_spec fails root buf w [] HB H) as (st & ln & co & r & w2 & L & E2 & _ & H2 & Hl & _).
  exists st, ln, co, r, w2. split; [auto|]. intros Hst. destruct Hl as [->|[?|?]]; [|contradiction|contradiction].
  rewrite app_nil_r in H2. split; [apply H2|auto].
Qed.
Print Assumptions C63_no_leak_partial.

(** Instance: the object of the boolean cannot be had. *)
Example C63_instance : exists w,
  sd_parse_o (only 11) None (buf "[1,true]") start = Ret (PR kExpectedJsonValue 1 4, None, w) /\ live w = [].
Proof. eexists. split; vm_compute; reflexivity. Qed.
