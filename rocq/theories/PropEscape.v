(** * Properties of EncodeEscapeSequences: C106. *)

From Verif Require Import Base SpecNum SpecUtf8 SpecGrammar SpecMeaning StringModel SpecText StringProofs DynModel DynProofs SpecEscape Str.
From Verif Require Import LexProofs TextProofs ParserModel ParserProofs RootProofs.

(** ** Characters *)
Lemma hex_of h : 0 <= h < 16 -> hex_digit (if h <? 10 then h + 48 else h + 55) = Some h.
Proof.
  intros H. unfold hex_digit. destruct (Z.ltb_spec h 10).
  - replace ((48 <=? h + 48) && (h + 48 <=? 57)) with true by lia. f_equal. lia.
  - replace ((48 <=? h + 55) && (h + 55 <=? 57)) with false by lia. replace ((65 <=? h + 55) && (h + 55 <=? 70)) with true by lia. f_equal. lia.
Qed.

Lemma encoded_spelled c : 0 < c < 256 -> spelled c (encoded c).
Proof.
  intros H. unfold encoded. destruct (Z.leb_spec 7 c); destruct (Z.leb_spec c 13); cbn [andb].
  { apply sp_short; [left; lia|]. assert (E : c = 7 \/ c = 8 \/ c = 9 \/ c = 10 \/ c = 11 \/ c = 12 \/ c = 13) by lia.
    destruct E as [->|[->|[->|[->|[->|[->| ->]]]]]]; constructor. }
  all: destruct ((c <? 32) || (c =? 127)) eqn:E;
    [apply sp_control with (x := c / 16) (y := c mod 16);
      [split; lia|apply hex_of; split; [apply Z.div_pos; lia|apply Z.div_lt_upper_bound; lia]
      |apply hex_of, Z.mod_pos_bound; lia|apply Z.div_mod; lia]|].
  all: destruct (Z.eqb_spec c 34) as [->|N1]; cbn [orb]; [apply sp_short; [unfold short; lia|constructor]|].
  all: destruct (Z.eqb_spec c 92) as [->|N2]; cbn [orb]; [apply sp_short; [unfold short; lia|constructor]|].
  all: apply sp_plain; unfold plain, short, control; lia.
Qed.

Lemma plain_encoded c : 0 < c < 256 -> ((1 <? length (encoded c))%nat = false <-> plain c).
Proof.
  intros H. pose proof (encoded_spelled c H) as S. inversion S as [? P E|? k P Hk E|? h l x y P _ _ _ E]; subst; cbn [length Nat.ltb Nat.leb].
  - now split.
  - split; [discriminate|]. intros (_ & N & _). contradiction.
  - split; [discriminate|]. intros (_ & _ & N). contradiction.
Qed.

Definition printable (c : Z) : Prop := 32 <= c < 256 /\ c <> 127.

Lemma hex_printable h x : hex_digit h = Some x -> printable h /\ 0 <= x < 16.
Proof.
  unfold hex_digit, printable. destruct ((48 <=? h) && (h <=? 57)) eqn:A; [intros [= <-]; lia|].
  destruct ((65 <=? h) && (h <=? 70)) eqn:B; [intros [= <-]; lia|]. destruct ((97 <=? h) && (h <=? 102)) eqn:C; [intros [= <-]; lia|discriminate].
Qed.

Lemma spelled_printable c s : 0 < c < 256 -> spelled c s -> Forall printable s /\ (1 <= length s <= 4)%nat.
Proof.
  intros H S. destruct S as [c P|c k P K|c h l x y P Hh Hl E].
  - split; [|cbn; lia]. constructor; [|constructor]. unfold plain, short, control, printable in *. lia.
  - split; [|cbn; lia]. constructor; [unfold printable; lia|]. constructor; [destruct K; unfold printable; lia|constructor].
  - apply hex_printable in Hh. apply hex_printable in Hl. split; [|cbn; lia].
    constructor; [unfold printable; lia|]. constructor; [unfold printable; lia|]. constructor; [tauto|]. constructor; [tauto|constructor].
Qed.

Lemma spelled_head c s : spelled c s -> exists k r, s = k :: r /\ (is_hex k -> is_hex c).
Proof.
  intros [c' P|c' k P K|c' h l x y P _ _ _]; do 2 eexists; (split; [reflexivity|]); [auto|..]; intros X; exfalso; now apply X.
Qed.

(** ** Texts *)
Lemma hexes2 h l x y : hex_digit h = Some x -> hex_digit l = Some y -> hexes [h; l] (16 * x + y).
Proof.
  intros Hh Hl. replace x with (16 * 0 + x) at 1 by lia. apply (hx_snoc [h] (16 * 0 + x) l y); [|exact Hl]. apply (hx_snoc [] 0 h x); [constructor|exact Hh].
Qed.

Lemma reads_two t ss : Forall2 spelled t ss -> c_body two (concat ss) t.
Proof.
  induction 1 as [|c s t ss H _ IH]; [constructor|]. cbn [concat]. destruct H as [c P|c k P K|c h l x y P Hh Hl ->]; cbn [app].
  - unfold plain, short, control in P. apply cb_plain; try lia. exact IH.
  - now apply cb_simple.
  - apply (cb_hex two [h; l]); [discriminate|now apply hexes2|reflexivity|exact IH].
Qed.

Lemma reads_longest t ss : Forall2 spelled t ss -> apart t -> c_body longest (concat ss) t.
Proof.
  induction 1 as [|c s t ss H H2 IH]; intros A; [constructor|]. cbn [concat].
  assert (A' : apart t) by (inversion A; subst; [constructor|assumption]). specialize (IH A').
  destruct H as [c P|c k P K|c h l x y P Hh Hl ->]; cbn [app].
  - unfold plain, short, control in P. apply cb_plain; try lia. exact IH.
  - now apply cb_simple.
  - apply (cb_hex longest [h; l]); [discriminate|now apply hexes2| |exact IH]. unfold longest.
    destruct H2 as [|e s' t ss S _]; [exact I|]. cbn [concat]. destruct (spelled_head e s' S) as (k & r & -> & X). cbn [app].
    inversion A as [| |? ? ? N _]; subst. intros I. apply N. split; [exact P|now apply X].
Qed.

(** ** The function *)
Lemma encode_into_ok : forall t, Forall (fun c => 0 < c < 256) t -> forall rest b0 b1, (length (concat (map encoded t)) + 1 <= length b1)%nat ->
  exists r, encode_into (t ++ 0 :: rest) (b0 ++ b1) (length b0) = Ret (b0 ++ concat (map encoded t) ++ 0 :: r) /\
    length (concat (map encoded t) ++ 0 :: r) = length b1.
Proof.
  intros t H. induction H as [|c t Hc H IH]; intros rest b0 b1 L.
  - cbn [map concat length] in L. destruct b1 as [|x b1]; [cbn in L; lia|]. exists b1. cbn [app encode_into Z.eqb]. rewrite wr_app. now split.
  - cbn [map concat]. cbn [map concat] in L. rewrite app_length in L.
    cbn [app encode_into]. destruct (Z.eqb_spec c 0); [lia|].
    set (e := encoded c) in *. set (w := length e) in *.
    assert (E : b1 = firstn w b1 ++ skipn w b1) by (symmetry; apply firstn_skipn). rewrite E.
    rewrite wrs_app by (rewrite firstn_length; unfold w in *; lia). cbn [bind].
    destruct (IH rest (b0 ++ e) (skipn w b1)) as (r & R & LR); [rewrite skipn_length; lia|].
    rewrite app_length in R. fold w in R. rewrite <- app_assoc in R. rewrite R. exists r. rewrite <- !app_assoc. split; [reflexivity|].
    rewrite app_length, LR, skipn_length, app_length, firstn_length, skipn_length. fold w. lia.
Qed.

Lemma plain_same t : Forall (fun c => 0 < c < 256) t -> Forall plain t -> concat (map encoded t) = t.
Proof.
  intros H P. induction H as [|c t Hc H IH]; [reflexivity|]. inversion P as [|? ? P1 P2]; subst. cbn [map concat]. rewrite IH by assumption.
  pose proof (encoded_spelled c Hc) as S. inversion S as [? _ E|? k Q _ E|? h l x y Q _ _ _ E]; subst; [reflexivity|..]; exfalso; destruct P1 as (_ & A1 & A2); contradiction.
Qed.

Lemma plain_dec t : Forall (fun c => 0 < c < 256) t -> existsb (fun c => (1 <? length (encoded c))%nat) t = false <-> Forall plain t.
Proof.
  induction 1 as [|c t Hc H IH]; [split; [constructor|reflexivity]|]. cbn [existsb]. rewrite Bool.orb_false_iff, (plain_encoded c Hc), IH.
  split; [intros []; now constructor|]. intros P. inversion P; now split.
Qed.

Lemma text_range t : bytes t -> nul_free t -> Forall (fun c => 0 < c < 256) t.
Proof.
  intros B N. induction B as [|c t Hb B IH]; [constructor|]. inversion N as [|? ? N1 N2]; subst. constructor; [unfold is_byte in Hb; lia|now apply IH].
Qed.

Lemma spelled_map t : Forall (fun c => 0 < c < 256) t -> Forall2 spelled t (map encoded t).
Proof. induction 1 as [|c t H _ IH]; constructor; [now apply encoded_spelled|exact IH]. Qed.

Lemma escape_ok (g : Z -> list Z) (d : dyn) (t : list Z) (ss := map encoded t) :
  (forall n, 0 <= n -> Z.of_nat (length (g n)) = n) -> exact d t -> bytes t ->
  exists d', dyn_escape g d = Ret d' /\ shape d' /\ Forall2 spelled t ss /\ holds (chars d') (concat ss) /\ Forall printable (concat ss) /\
    (Forall plain t -> d' = d) /\ (~ Forall plain t -> logical d' = Z.of_nat (length (concat ss)) /\ logical d' + 4 <= physical d').
Proof.
  intros Hg (Hs & Hx & Hl) Hb. pose proof (text_range t Hb (proj1 Hx)) as R.
  destruct (holds_nul _ _ Hx) as [Hi Hc]. destruct Hx as (Nt & rest & Ex).
  pose proof (spelled_map t R) as S. fold ss in S.
  assert (Pr : Forall printable (concat ss)).
  { clear -S R. clearbody ss. induction S as [|c s t ss H S IH]; [constructor|]. inversion R; subst. cbn [concat]. apply Forall_app. split; [|auto].
    eapply spelled_printable; eauto. }
  assert (Hf : firstn (length t) (chars d) = t) by (rewrite Ex, firstn_app, firstn_all, Nat.sub_diag; cbn [firstn]; apply app_nil_r).
  unfold dyn_escape. rewrite text_length by exact Hi. cbn [bind]. rewrite Hc, Hf.
  destruct (existsb _ t) eqn:X.
  - set (n := Z.of_nat (length (concat (map encoded t)))). pose proof (physical_size_ge n) as G.
    specialize (Hg (physical_size n) ltac:(lia)).
    destruct (encode_into_ok t R rest [] (g (physical_size n)) ltac:(lia)) as (r & Er & Lr). cbn [app length] in Er, Lr. rewrite Ex, Er. cbn [bind].
    eexists. split; [reflexivity|]. split; [|split; [exact S|split; [|split; [exact Pr|split]]]].
    + destruct Hs as (S1 & _ & _). split; [exact S1|]. split; [unfold chars; cbn [heap physical]; lia|discriminate].
    + split; [|exists r; unfold chars; cbn [heap]; reflexivity].
      eapply Forall_impl; [|exact Pr]. unfold printable. cbn beta. lia.
    + intros P. apply (plain_dec t R) in P. congruence.
    + intros _. cbn [logical physical]. split; [reflexivity|exact G].
  - apply (plain_dec t R) in X. exists d. split; [reflexivity|]. split; [exact Hs|]. split; [exact S|]. split; [|split; [exact Pr|split; [auto|intros N; contradiction]]].
    split; [eapply Forall_impl; [|exact Pr]; unfold printable; cbn beta; lia|]. exists rest. unfold ss. rewrite plain_same by assumption. exact Ex.
Qed.

(** ** C106: EncodeEscapeSequences.

    The object holds the text spelled character by character, within its storage, whatever new
    memory contains; no control character, quotation mark or lone backslash is left. A text without
    such characters is left alone. *)
Theorem C106_text (g : Z -> list Z) (d : dyn) (t : list Z) :
  (forall n, 0 <= n -> Z.of_nat (length (g n)) = n) -> exact d t -> bytes t ->
  exists d' ss, dyn_escape g d = Ret d' /\ shape d' /\ Forall2 spelled t ss /\ holds (chars d') (concat ss) /\ Forall printable (concat ss) /\
    (Forall plain t -> d' = d).
Proof.
  intros Hg He Hb. destruct (escape_ok g d t Hg He Hb) as (d' & E & Sh & S & Hh & Pr & Hp & _). exists d', (map encoded t).
  do 5 (split; [assumption|]). assumption.
Qed.
Print Assumptions C106_text.

(** A reader that takes two digits after \x reads the text back. *)
Theorem C106_reads_back t ss : Forall2 spelled t ss -> c_body two (concat ss) t.
Proof. apply reads_two. Qed.
Print Assumptions C106_reads_back.

(** Hence different texts are spelled differently. *)
Lemma two_unique : forall t s1, c_body two t s1 -> forall s2, c_body two t s2 -> s1 = s2.
Proof.
  assert (HX : forall ds v, hexes ds v -> forall v', hexes ds v' -> v = v').
  { induction 1 as [|ds v c x H IH D]; intros v' H'.
    - inversion H' as [|ds' w c' x' H1 D1 E]; [reflexivity|]. destruct ds'; discriminate.
    - inversion H' as [E|ds' w c' x' H1 D1 E]; [destruct ds; discriminate|]. apply app_inj_tail in E. destruct E as [-> ->].
      rewrite (IH w H1). congruence. }
  induction 1 as [|c t s N1 N2 N3 H IH|c x t s K H IH|ds v t s Nd Hd L H IH]; intros s2 H2.
  - inversion H2; reflexivity.
  - inversion H2; subst; try lia. f_equal. now apply IH.
  - inversion H2 as [|? ? ? ? ? ? ? E|? x' ? s' K' H' E|ds' v' t' s' ? ? ? ? E]; subst; try lia.
    + f_equal; [|now apply IH]. destruct K; inversion K'; reflexivity.
    + exfalso. inversion K.
  - inversion H2 as [|? ? ? ? ? ? ? E|? x' ? s' K' H' E|ds' v' t' s' Nd' Hd' L' H' E]; subst; try lia; [exfalso; inversion K'|].
    unfold two in L, L'. assert (Q : ds' = ds /\ t' = t).
    { destruct ds as [|a [|b [|]]]; try discriminate. destruct ds' as [|a' [|b' [|]]]; try discriminate. cbn [app] in E. injection E as -> -> ->. now split. }
    destruct Q as [-> ->]. f_equal; [eapply HX; eauto|now apply IH].
Qed.

Theorem C106_injective t1 ss1 t2 ss2 : Forall2 spelled t1 ss1 -> Forall2 spelled t2 ss2 -> concat ss1 = concat ss2 -> t1 = t2.
Proof.
  intros H1 H2 E. apply reads_two in H1. apply reads_two in H2. rewrite E in H1. eapply two_unique; eauto.
Qed.
Print Assumptions C106_injective.

(** C takes as many digits as there are: a control character before a digit is read back as another. *)
Theorem C106_refuted : exists t : list Z, bytes t /\
  forall g d, (forall n, 0 <= n -> Z.of_nat (length (g n)) = n) -> exact d t ->
    exists d' t' s, dyn_escape g d = Ret d' /\ holds (chars d') t' /\ c_body longest t' s /\ s <> t /\ ~ c_body longest t' t.
Proof.
  exists [1; 65]. assert (Hb : bytes [1; 65]) by (repeat constructor; discriminate). split; [exact Hb|].
  intros g d Hg He. destruct (escape_ok g d [1; 65] Hg He Hb) as (d' & E & _ & _ & Hh & _).
  exists d', (`"\x01A"), [26]. split; [exact E|]. split; [exact Hh|]. split; [|split; [discriminate|]].
  - change (`"\x01A") with (92 :: 120 :: [48; 49; 65] ++ []). apply cb_hex; [discriminate| |exact I|constructor].
    apply (hx_snoc [48; 49] 1 65 10); [|reflexivity]. apply (hexes2 48 49 0 1); reflexivity.
  - change (`"\x01A") with [92; 120; 48; 49; 65]. intros B. inversion B as [|? ? ? ? ? ? ? E'|? x' ? s' K' H' E'|ds v t' s' Nd Hd L H E']; subst; try lia; try solve [inversion K'].
    destruct ds as [|a [|b [|c [|e ds]]]]; cbn [app] in E'; [contradiction|..]; try discriminate; injection E'; intros; subst.
    + unfold longest in L. apply L. discriminate.
    + unfold longest in L. apply L. discriminate.
    + inversion H.
Qed.
Print Assumptions C106_refuted.

(** What holds by C's rules: texts without a control character before a hexadecimal digit. *)
Theorem C106_c_partial t ss : Forall2 spelled t ss -> apart t -> c_body longest (concat ss) t.
Proof. apply reads_longest. Qed.
Print Assumptions C106_c_partial.

(** The recorded length lacks the terminator: it is one too small after any change, and appending
    a character then replaces the last one. *)
Theorem C106_length_refuted (g : Z -> list Z) (d : dyn) (t : list Z) :
  (forall n, 0 <= n -> Z.of_nat (length (g n)) = n) -> exact d t -> bytes t -> ~ Forall plain t ->
  exists d' ss, dyn_escape g d = Ret d' /\ Forall2 spelled t ss /\ holds (chars d') (concat ss) /\ logical d' = Z.of_nat (length (concat ss)) /\
    forall k, k <> 0 -> exists d'', dyn_append_char g d' k = Ret d'' /\ holds (chars d'') (removelast (concat ss) ++ [k]).
Proof.
  intros Hg He Hb Np. destruct (escape_ok g d t Hg He Hb) as (d' & E & Sh & S & Hh & Pr & _ & Hl). destruct (Hl Np) as [L P].
  set (ss := map encoded t) in *. exists d', ss. split; [exact E|]. split; [exact S|]. split; [exact Hh|]. split; [exact L|].
  intros k Hk. assert (N : concat ss <> []).
  { intros N. destruct S as [|c s t ss' Hs S]; [now apply Np|]. cbn [concat] in N. destruct Hs; discriminate. }
  destruct (exists_last N) as (u & z & Eu). rewrite Eu in *. rewrite removelast_last. rewrite app_length in L. cbn [length] in L.
  unfold dyn_append_char, grow. destruct (Z.ltb_spec (physical d') (logical d' + 1)); [lia|]. cbn [bind].
  unfold at_end. destruct (Z.ltb_spec (logical d') 1); [lia|]. replace (Z.to_nat (logical d' - 1)) with (length u) by lia.
  destruct Hh as (Hn & r & Ex). rewrite Ex, <- app_assoc. cbn [app]. rewrite wr_app. cbn [bind].
  replace (u ++ k :: 0 :: r) with ((u ++ [k]) ++ 0 :: r) by now rewrite <- app_assoc.
  replace (Datatypes.S (length u)) with (length (u ++ [k])) by (rewrite app_length; cbn; lia). rewrite wr_app. cbn [bind].
  eexists. split; [reflexivity|]. rewrite chars_logical, chars_with. apply Forall_app in Hn. destruct Hn as [Hn _].
  split; [apply Forall_app; split; [exact Hn|now repeat constructor]|]. now exists r.
Qed.
Print Assumptions C106_length_refuted.

(** ** JSON *)
Lemma utf8_high cp : code_point cp -> 128 <= cp -> Forall (fun c => 128 <= c < 256) (utf8 cp).
Proof.
  intros C H. pose proof (utf8_bytes cp C) as B. enough (Q : Forall (fun c => 128 <= c) (utf8 cp)).
  { clear -B Q. induction B as [|c l Hc B IH]; [constructor|]. inversion Q; subst. constructor; [unfold is_byte in Hc; lia|auto]. }
  clear B. unfold utf8, code_point in *. destruct (Z.ltb_spec cp 128); [lia|].
  assert (M : forall x, 0 <= x mod 64) by (intros; apply Z.mod_pos_bound; lia).
  assert (D : forall k, 0 < k -> 0 <= cp / k) by (intros; apply Z.div_pos; lia).
  pose proof (D 64 ltac:(lia)). pose proof (D 4096 ltac:(lia)). pose proof (D 262144 ltac:(lia)).
  pose proof (M cp). pose proof (M (cp / 64)). pose proof (M (cp / 4096)).
  destruct (cp <? 2048); [|destruct (cp <? 65536)]; repeat constructor; lia.
Qed.

Lemma high_same u : Forall (fun c => 128 <= c < 256) u -> concat (map encoded u) = u.
Proof.
  intros H. apply plain_same; (eapply Forall_impl; [|exact H]); cbn beta; unfold plain, short, control; intros; lia.
Qed.

Lemma json_body t : json_text t -> lib_str (concat (map encoded t)) t.
Proof.
  induction 1 as [|cp t R _ IH|c t I _ IH]; [constructor|..].
  - rewrite map_app, concat_app. replace (concat (map encoded (utf8 cp))) with (utf8 cp); [now apply sb_raw|].
    destruct R as (C & R). destruct (Z.lt_ge_cases cp 128) as [H|H]; [|symmetry; now apply high_same, utf8_high].
    unfold utf8. destruct (Z.ltb_spec cp 128); [|lia]. symmetry. apply plain_same; repeat constructor; unfold plain, short, control; lia.
  - cbn [map concat]. destruct I as [<-|[<-|[<-|[<-|[<-|[<-|[<-|[]]]]]]]]; cbn; apply sb_esc; auto; constructor.
Qed.

(** Texts of code points without DEL and control characters other than \b \t \n \f \r: in
    quotation marks, the result is a JSON text that Parse accepts, and it denotes the text. *)
Theorem C106_json_partial (g : Z -> list Z) (d : dyn) (t : list Z) (root : option value) :
  (forall n, 0 <= n -> Z.of_nat (length (g n)) = n) -> exact d t -> bytes t -> json_text t ->
  exists d' t', dyn_escape g d = Ret d' /\ holds (chars d') t' /\ sd_parse root (34 :: t' ++ [34; 0]) = Ret (PR kOk 0 0, Some (VString t)).
Proof.
  intros Hg He Hb J. destruct (escape_ok g d t Hg He Hb) as (d' & E & _ & _ & Hh & _). exists d', (concat (map encoded t)).
  split; [exact E|]. split; [exact Hh|]. set (t' := concat (map encoded t)) in *.
  destruct (root_complete root (34 :: t' ++ [34]) (JStr t) []) as (v & Ev & Hv & _).
  - rewrite <- (app_nil_r (34 :: t' ++ [34])). apply (gdoc_intro _ _ [] (34 :: t' ++ [34]) []); [constructor| |constructor]. apply g_str. now apply json_body.
  - cbn [length]. rewrite app_length. cbn. lia.
  - now exists [].
  - rewrite <- app_comm_cons, <- app_assoc in Ev. cbn [app] in Ev. cbn [app]. rewrite Ev. repeat f_equal. now inversion Hv.
Qed.
Print Assumptions C106_json_partial.

(** Other control characters give texts that Parse rejects. *)
Theorem C106_json_refuted : exists t : list Z, bytes t /\
  forall g d, (forall n, 0 <= n -> Z.of_nat (length (g n)) = n) -> exact d t ->
    exists d' t', dyn_escape g d = Ret d' /\ holds (chars d') t' /\
      forall root, exists st l c, st <> kOk /\ sd_parse root (34 :: t' ++ [34; 0]) = Ret (PR st l c, None).
Proof.
  exists [7]. assert (Hb : bytes [7]) by (repeat constructor; discriminate). split; [exact Hb|].
  intros g d Hg He. destruct (escape_ok g d [7] Hg He Hb) as (d' & E & _ & _ & Hh & _). exists d', (`"\a"). split; [exact E|]. split; [exact Hh|].
  intros root. do 3 eexists. split; [|vm_compute; reflexivity]. discriminate.
Qed.
Print Assumptions C106_json_refuted.

(** An object with tab, a bell, a quotation mark and a letter of two bytes. *)
Example C106_instance : exists d d', dyn_run (fun _ n => repeat 7 (Z.to_nat n)) 0 [NewText ([97; 9; 7; 34; 195; 169; 1; 122] ++ [0])] [] = Ret [d] /\
  exact d [97; 9; 7; 34; 195; 169; 1; 122] /\ dyn_escape (fun n => repeat 7 (Z.to_nat n)) d = Ret d' /\
  holds (chars d') (`"a\t\a\""" ++ [195; 169] ++ `"\x01z") /\ apart [97; 9; 7; 34; 195; 169; 1; 122] /\ json_text [97; 9; 34; 195; 169; 122].
Proof.
  do 2 eexists. split; [vm_compute; reflexivity|]. split; [|split; [vm_compute; reflexivity|split; [|split]]].
  - split; [split; [reflexivity|split; reflexivity]|]. split; [|reflexivity]. split; [repeat constructor; discriminate|eexists; vm_compute; reflexivity].
  - split; [vm_compute; repeat constructor; discriminate|]. eexists. vm_compute. reflexivity.
  - repeat (apply ap_cons; [unfold control, is_hex; cbn; intros [[? ?] ?]; try lia; now auto|]). constructor.
  - apply (jt_raw 97); [unfold lib_raw, code_point; lia|]. apply jt_esc; [cbn; tauto|]. apply jt_esc; [cbn; tauto|].
    apply (jt_raw 233); [unfold lib_raw, code_point; lia|]. apply (jt_raw 122); [unfold lib_raw, code_point; lia|]. constructor.
Qed.
