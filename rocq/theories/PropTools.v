(** * Properties of the text functions: C64 - C71.

    [holds p s]: the array from [p] on is the text [s], a NUL, and anything behind it.
    [cut p n s]: [s] is the text at [p] or, if it is longer, its first [n] bytes; the
    bytes behind them need not exist. *)

From Verif Require Import Base Str TextModel StringModel ToolsModel SpecNum SpecText SpecMap SpecTools.
From Verif Require Import ToolsProofs NumberedProofs ToolTokens.

(** ** C64: searching for characters *)

Theorem C64_find_char (p s : list Z) (k : Z) : holds p s ->
  exists r, find_char p k 0 = Ret r /\ first_at (fun j => nth_error s j = Some k) r.
Proof.
  intros H. destruct (find_char_ok s p k 0 H) as (r & E & F). rewrite shift_0 in E. eauto.
Qed.
Print Assumptions C64_find_char.

Theorem C64_find_char_max (p s : list Z) (k max : Z) : - 2 ^ 31 < max -> cut p (Z.to_nat max) s ->
  exists r, find_char_max p k max = Ret r /\ first_at (fun j => nth_error s j = Some k) r.
Proof.
  intros M H. destruct (find_char_loop_ok _ s p k 0 H) as (r & E & F). rewrite shift_0 in E.
  exists r. unfold find_char_max. rewrite max_rounds_ok by trivial. auto.
Qed.
Print Assumptions C64_find_char_max.

Theorem C64_count (p s : list Z) (k max : Z) : cut p (Z.to_nat max) s ->
  count_chars p k max = Ret (Z.of_nat (count_occ Z.eq_dec s k)).
Proof. intros H. unfold count_chars. rewrite (count_chars_ok _ s p k 0 H). reflexivity. Qed.
Print Assumptions C64_count.

(** For a character other than the quote itself. *)
Theorem C64_find_unquoted (p s : list Z) (k : Z) : holds p s -> k <> 34 ->
  exists r, find_unquoted_char p k false false 0 = Ret r /\ first_at (unquoted_at s k) r.
Proof.
  intros H N. destruct (find_unquoted_ok s p k false false 0 N H) as (r & E & F). rewrite shift_0 in E.
  exists r. split; trivial. eapply first_at_ext; [|exact F]. intros j. unfold unquoted_at. rewrite scan_iff. reflexivity.
Qed.
Print Assumptions C64_find_unquoted.

(** Every array with a NUL or with at least [n] elements can be passed. *)
Theorem C64_any_array (p : list Z) (n : nat) : In 0 p \/ (n <= length p)%nat -> exists s, cut p n s.
Proof. apply cut_intro. Qed.
Print Assumptions C64_any_array.

Example C64_e1 : find_char (`"abcabc" ++ [0]) 99 0 = Ret 2 /\ find_char_max (`"abcabc") 99 2 = Ret (-1) /\
  count_chars (`"abcabc") 98 6 = Ret 2.
Proof. vm_compute. auto. Qed.
Example C64_e2 : holds (`"abcabc" ++ [0]) (`"abcabc").
Proof. split; [repeat constructor; discriminate|exists []; reflexivity]. Qed.
Example C64_e3 : cut (`"abcabc") 2 (`"ab").
Proof. split; [repeat constructor; discriminate|]. right. split; [reflexivity|]. exists (`"cabc"). reflexivity. Qed.
(** The first comma outside the quotes is at 8; the quoted part has a comma and an escaped quote. *)
Example C64_e4 : find_unquoted_char ([97; 34; 98; 44; 92; 34; 99; 34; 44; 100; 0]) 44 false false 0 = Ret 8.
Proof. reflexivity. Qed.

(** ** C65: searching for texts *)

(** The empty text occurs everywhere, but FindText never finds it. *)
Theorem C65_refuted : exists p s q, holds p s /\ holds q [] /\
  find_text p q = Ret (-1) /\ first_at (occurs s []) 0.
Proof.
  exists (`"abc" ++ [0]), (`"abc"), [0]. split; [split; [repeat constructor; discriminate|exists []; reflexivity]|].
  split; [split; [constructor|exists []; reflexivity]|]. split; [reflexivity|].
  apply first_here. split; [lia|]. exists (`"abc"). reflexivity.
Qed.
Print Assumptions C65_refuted.

(** FindTextCaseless compares the first character with its case. *)
Theorem C65_caseless_refuted : exists p s q t, holds p s /\ holds q t /\ t <> [] /\ find_text_caseless p q = Ret (-1) /\
  first_at (occurs_up_to upper s t) 0.
Proof.
  exists (`"Abc" ++ [0]), (`"Abc"), (`"abc" ++ [0]), (`"abc").
  split; [split; [repeat constructor; discriminate|exists []; reflexivity]|].
  split; [split; [repeat constructor; discriminate|exists []; reflexivity]|]. split; [discriminate|].
  split; [reflexivity|].
  apply first_here. split; [simpl; lia|]. exists []. reflexivity.
Qed.
Print Assumptions C65_caseless_refuted.

Theorem C65_find_text_partial (p s q t : list Z) : holds p s -> holds q t -> t <> [] ->
  exists r, find_text p q = Ret r /\ first_at (occurs s t) r.
Proof.
  intros P Q N. destruct t as [|c t]; [contradiction|].
  destruct (find_text_any no_fold s t c p q P Q) as (r & E & F). exists r. split; [exact E|].
  eapply first_at_ext; [|exact F]. intros j. apply match_at_occurs.
Qed.
Print Assumptions C65_find_text_partial.

(** What FindTextCaseless finds: the first place where the first character occurs
    exactly and the others follow in any case. *)
Theorem C65_caseless_exact (p s q t : list Z) (c : Z) : holds p s -> holds q (c :: t) -> bytes s -> bytes t ->
  exists r, find_text_caseless p q = Ret r /\
    first_at (fun j => occurs_up_to upper s (c :: t) j /\ nth_error s j = Some c) r.
Proof.
  intros P Q Bs Bt. destruct (find_text_any fold_upper s t c p q P Q) as (r & E & F). exists r. split; [exact E|].
  eapply first_at_ext; [|exact F]. intros j. unfold match_at, prefix_up_to, occurs_up_to, occurs.
  assert (Bj : bytes (skipn j s)).
  { apply Forall_forall. intros x I. rewrite <- (firstn_skipn j s) in Bs. apply Forall_app in Bs.
    destruct Bs as [_ Bs]. rewrite Forall_forall in Bs. auto. }
  rewrite map_length, skipn_map. split.
  - intros (s' & Es & post & E'). rewrite Es in *. inversion_clear Bj. rewrite map_upper in E' by trivial. rewrite map_upper in E' by trivial.
    split.
    + split; [|exists post; simpl; rewrite E'; reflexivity]. apply (f_equal (@length Z)) in Es. rewrite skipn_length in Es. simpl in Es. lia.
    + replace (nth_error s j) with (nth_error (skipn j s) 0); [rewrite Es; reflexivity|].
      clear. revert j. induction s as [|x s IH]; intros [|j]; trivial. simpl. apply IH.
  - intros ((L & post & E') & Nj).
    assert (nth_error (skipn j s) 0 = Some c) as N0.
    { rewrite <- Nj. clear. revert j. induction s as [|x s IH]; intros [|j]; trivial. simpl. apply IH. }
    destruct (skipn j s) as [|x s'] eqn:Es; [discriminate|]. injection N0 as ->. exists s'. split; trivial.
    inversion_clear Bj. exists post. rewrite !map_upper by trivial. simpl in E'. congruence.
Qed.
Print Assumptions C65_caseless_exact.

Theorem C65_empty (p s q : list Z) : holds p s -> holds q [] -> find_text p q = Ret (-1) /\ find_text_caseless p q = Ret (-1).
Proof. intros P Q. split; apply (find_text_empty _ s p q P Q). Qed.
Print Assumptions C65_empty.

Example C65_e1 : find_text (`"aababac" ++ [0]) (`"abac" ++ [0]) = Ret 3 /\ find_text (`"aab" ++ [0]) (`"abb" ++ [0]) = Ret (-1).
Proof. vm_compute. auto. Qed.
Example C65_e2 : find_text_caseless (`"xyAyaB" ++ [0]) (`"ab" ++ [0]) = Ret 4.
Proof. reflexivity. Qed.

(** ** C66: comparing, with a bound and without regard to case *)

Definition same (f : Z -> Z) (a b : list Z) (x : out bool) : Prop := exists r, x = Ret r /\ (r = true <-> map f a = map f b).
Definition less (f : Z -> Z) (a b : list Z) (x : out bool) : Prop := exists r, x = Ret r /\ (r = true <-> lex_lt (map f a) (map f b)).
Definition less_or_equal (f : Z -> Z) (a b : list Z) (x : out bool) : Prop :=
  exists r, x = Ret r /\ (r = true <-> ~ lex_lt (map f b) (map f a)).
Definition same_case (c : Z) : Z := c.

Theorem C66_bounded (p q a b : list Z) (max : Z) : - 2 ^ 31 < max ->
  cut p (Z.to_nat max) a -> cut q (Z.to_nat max) b -> bytes a -> bytes b ->
  same same_case a b (compare_text_max p q max) /\
  same lower a b (compare_text_caseless_max p q max) /\
  less same_case a b (less_than_max p q max) /\
  less upper a b (less_than_caseless_max p q max) /\
  less_or_equal same_case a b (less_equal_max p q max) /\
  less_or_equal upper a b (less_equal_caseless_max p q max).
Proof.
  intros M P Q A B.
  unfold compare_text_max, compare_text_caseless_max, less_than_max, less_than_caseless_max, less_equal_max, less_equal_caseless_max.
  rewrite max_rounds_ok by trivial. cbn [bind]. unfold same, less, less_or_equal. repeat apply conj.
  - apply (equal_loop_ok no_fold eq_refl no_fold_pos _ a b); trivial.
  - rewrite <- !map_lower by trivial. apply (equal_loop_ok fold_lower eq_refl lower_pos _ a b); trivial.
  - apply (order_loop_ok no_fold eq_refl no_fold_pos true _ a b); trivial.
  - rewrite <- !map_upper by trivial. apply (order_loop_ok fold_upper eq_refl upper_pos true _ a b); trivial.
  - apply (order_loop_ok no_fold eq_refl no_fold_pos false _ a b); trivial.
  - rewrite <- !map_upper by trivial. apply (order_loop_ok fold_upper eq_refl upper_pos false _ a b); trivial.
Qed.
Print Assumptions C66_bounded.

Theorem C66_caseless (p q a b : list Z) : holds p a -> holds q b -> bytes a -> bytes b ->
  same lower a b (compare_text_caseless p q) /\
  less upper a b (less_than_caseless p q) /\
  less_or_equal upper a b (less_equal_caseless p q).
Proof.
  intros P Q A B. unfold same, less, less_or_equal. repeat apply conj.
  - rewrite <- !map_lower by trivial. apply (equal_all_ok fold_lower eq_refl lower_pos a b); trivial.
  - rewrite <- !map_upper by trivial. apply (order_all_ok fold_upper eq_refl upper_pos true a b); trivial.
  - rewrite <- !map_upper by trivial. apply (order_all_ok fold_upper eq_refl upper_pos false a b); trivial.
Qed.
Print Assumptions C66_caseless.

(** The functions fit together, though equality uses lower and order upper case:
    of any two texts exactly one of less, equal, greater is true. *)
Theorem C66_trichotomy (p q a b : list Z) : holds p a -> holds q b -> bytes a -> bytes b ->
  exists lt eq gt, less_than_caseless p q = Ret lt /\ compare_text_caseless p q = Ret eq /\ less_than_caseless q p = Ret gt /\
    ((lt, eq, gt) = (true, false, false) \/ (lt, eq, gt) = (false, true, false) \/ (lt, eq, gt) = (false, false, true)).
Proof.
  intros P Q A B.
  destruct (C66_caseless p q a b P Q A B) as ((eq & E1 & H1) & (lt & E2 & H2) & _).
  destruct (C66_caseless q p b a Q P B A) as (_ & (gt & E3 & H3) & _).
  rewrite map_upper_lower in H1 by trivial.
  exists lt, eq, gt. repeat (split; [trivial|]).
  destruct (lex_total (map upper a) (map upper b)) as [L|[E|L]].
  - left. rewrite (proj2 H2 L). destruct eq; [destruct (lex_irrefl (map upper a)); rewrite (proj1 H1 eq_refl) at 2; trivial|].
    destruct gt; trivial. destruct (lex_irrefl (map upper a)). eapply lex_trans; [exact L|]. apply H3. trivial.
  - right. left. rewrite (proj2 H1 E). rewrite E in *. destruct lt; [destruct (lex_irrefl _ (proj1 H2 eq_refl))|].
    destruct gt; [destruct (lex_irrefl _ (proj1 H3 eq_refl))|]. trivial.
  - right. right. rewrite (proj2 H3 L). destruct eq; [destruct (lex_irrefl (map upper a)); rewrite (proj1 H1 eq_refl) at 1; trivial|].
    destruct lt; trivial. destruct (lex_irrefl (map upper a)). eapply lex_trans; [|exact L]. apply H2. trivial.
Qed.
Print Assumptions C66_trichotomy.

Example C66_e1 : compare_text_caseless (`"JsOn_1" ++ [0]) (`"jSoN_1" ++ [0]) = Ret true /\
  less_than_caseless (`"a_" ++ [0]) (`"B" ++ [0]) = Ret true /\ less_than_max (`"abcX") (`"abcY") 3 = Ret false /\
  less_equal_max (`"abcX") (`"abcY") 3 = Ret true /\ less_equal_caseless_max (`"B") (`"abc") 1 = Ret false.
Proof. vm_compute. repeat split. Qed.

(** ** C67: comparing texts with numbers *)

(** With superfluous zeros the function is no order: each of two texts is less than
    the other. Numbers from 2^32 on wrap. *)
Theorem C67_refuted : exists p s q t, holds p s /\ holds q t /\ numbered_less_than p q = Ret true /\ numbered_less_than q p = Ret true.
Proof.
  exists (`"1b" ++ [0]), (`"1b"), (`"01a" ++ [0]), (`"01a").
  split; [split; [repeat constructor; discriminate|exists []; reflexivity]|].
  split; [split; [repeat constructor; discriminate|exists []; reflexivity]|]. vm_compute. auto.
Qed.
Print Assumptions C67_refuted.

Theorem C67_large_refuted : exists p s q t, holds p s /\ holds q t /\ digits s /\ digits t /\ dvalue t < dvalue s /\
  numbered_less_than p q = Ret true.
Proof.
  exists (`"4294967296" ++ [0]), (`"4294967296"), (`"1" ++ [0]), (`"1").
  split; [split; [repeat constructor; discriminate|exists []; reflexivity]|].
  split; [split; [repeat constructor; discriminate|exists []; reflexivity]|].
  assert (D : forall l, forallb (fun c => (48 <=? c) && (c <=? 57)) l = true -> digits l).
  { intros l H. rewrite forallb_forall in H. apply Forall_forall. intros c I. apply H in I. unfold digit. lia. }
  split; [apply D; reflexivity|]. split; [apply D; reflexivity|]. vm_compute. auto.
Qed.
Print Assumptions C67_large_refuted.

(** It always returns. *)
Theorem C67_total (p q a b : list Z) : holds p a -> holds q b -> bytes a -> bytes b ->
  (exists r, numbered_less_than p q = Ret r) /\ (exists r, numbered_less_than_caseless p q = Ret r).
Proof.
  intros P Q A B. assert (L : (length a < S (length p))%nat) by (destruct P as (_ & r & ->); rewrite app_length; lia). split.
  - apply (numbered_safe no_fold eq_refl no_fold_pos ltac:(reflexivity) ltac:(trivial) _ a b); trivial.
  - apply (numbered_safe fold_upper eq_refl upper_pos upper_digit upper_other _ a b); trivial.
Qed.
Print Assumptions C67_total.

(** On texts whose numbers have no superfluous zeros and are below 2^32: order of the
    sort keys, in which every group of digits stands for its value. *)
Theorem C67_by_key_partial (p q a b : list Z) : holds p a -> holds q b -> bytes a -> bytes b -> plain_numbers a -> plain_numbers b ->
  (forall ka kb, sort_key same_case a ka -> sort_key same_case b kb ->
     exists r, numbered_less_than p q = Ret r /\ (r = true <-> key_lt ka kb)) /\
  (forall ka kb, sort_key fold_upper a ka -> sort_key fold_upper b kb ->
     exists r, numbered_less_than_caseless p q = Ret r /\ (r = true <-> key_lt ka kb)).
Proof.
  intros P Q A B Pa Pb. assert (L : (length a < S (length p))%nat) by (destruct P as (_ & r & ->); rewrite app_length; lia).
  split; intros ka kb Ka Kb.
  - apply (numbered_ok no_fold eq_refl no_fold_pos ltac:(reflexivity) ltac:(trivial) _ a b); trivial.
  - apply (numbered_ok fold_upper eq_refl upper_pos upper_digit upper_other _ a b); trivial.
Qed.
Print Assumptions C67_by_key_partial.

(** There it is a strict total order. *)
Theorem C67_order_partial (p q w a b c : list Z) :
  holds p a -> holds q b -> holds w c -> bytes a -> bytes b -> bytes c ->
  plain_numbers a -> plain_numbers b -> plain_numbers c ->
  numbered_less_than p p = Ret false /\
  (numbered_less_than p q = Ret true -> numbered_less_than q w = Ret true -> numbered_less_than p w = Ret true) /\
  (a = b \/ numbered_less_than p q = Ret true \/ numbered_less_than q p = Ret true) /\
  numbered_less_than_caseless p p = Ret false /\
  (numbered_less_than_caseless p q = Ret true -> numbered_less_than_caseless q w = Ret true -> numbered_less_than_caseless p w = Ret true) /\
  (map upper a = map upper b \/ numbered_less_than_caseless p q = Ret true \/ numbered_less_than_caseless q p = Ret true).
Proof.
  intros P Q W A B C Pa Pb Pc.
  assert (G : forall f less, (forall p q a b, holds p a -> holds q b -> bytes a -> bytes b -> plain_numbers a -> plain_numbers b ->
      forall ka kb, sort_key f a ka -> sort_key f b kb -> exists r, less p q = Ret r /\ (r = true <-> key_lt ka kb)) ->
      (forall c, digit c -> f c = c) -> (forall c, is_byte c -> ~ digit c -> ~ digit (f c)) ->
      less p p = Ret false /\ (less p q = Ret true -> less q w = Ret true -> less p w = Ret true) /\
      (map f a = map f b \/ less p q = Ret true \/ less q p = Ret true)).
  { intros f lt H Fd Fo.
    destruct (plain_key f a Pa) as (ka & Ka). destruct (plain_key f b Pb) as (kb & Kb). destruct (plain_key f c Pc) as (kc & Kc).
    destruct (H p p a a P P A A Pa Pa ka ka Ka Ka) as (r0 & E0 & H0).
    destruct (H p q a b P Q A B Pa Pb ka kb Ka Kb) as (r1 & E1 & H1).
    destruct (H q p b a Q P B A Pb Pa kb ka Kb Ka) as (r2 & E2 & H2).
    destruct (H q w b c Q W B C Pb Pc kb kc Kb Kc) as (r3 & E3 & H3).
    destruct (H p w a c P W A C Pa Pc ka kc Ka Kc) as (r4 & E4 & H4).
    rewrite E0, E1, E2, E3, E4. split; [|split].
    - destruct r0; trivial. destruct (key_irrefl ka). apply H0. trivial.
    - intros X Y. injection X as ->. injection Y as ->. f_equal. apply H4. eapply key_trans; [apply H1|apply H3]; trivial.
    - destruct (key_total ka kb) as [K|[K|K]].
      + right. left. f_equal. apply H1. trivial.
      + left. subst kb. apply (key_inj f Fd Fo a Pa b ka); trivial.
      + right. right. f_equal. apply H2. trivial. }
  destruct (G no_fold numbered_less_than) as (X1 & X2 & X3).
  { intros p' q' a' b' P' Q' A' B' Pa' Pb'. apply (C67_by_key_partial p' q' a' b'); trivial. }
  { reflexivity. }
  { trivial. }
  destruct (G fold_upper numbered_less_than_caseless) as (Y1 & Y2 & Y3).
  { intros p' q' a' b' P' Q' A' B' Pa' Pb'. apply (C67_by_key_partial p' q' a' b'); trivial. }
  { apply upper_digit. }
  { apply upper_other. }
  rewrite !map_upper in Y3 by trivial.
  replace (map no_fold a) with a in X3 by (symmetry; apply map_id). replace (map no_fold b) with b in X3 by (symmetry; apply map_id).
  auto 10.
Qed.
Print Assumptions C67_order_partial.

(** "file9.txt" is before "file10.txt". *)
Example C67_e1 : numbered_less_than (`"file9.txt" ++ [0]) (`"file10.txt" ++ [0]) = Ret true /\
  numbered_less_than_caseless (`"File10" ++ [0]) (`"file9a" ++ [0]) = Ret false.
Proof. vm_compute. auto. Qed.
Example C67_e2 : plain_numbers (`"a10b0").
Proof.
  change (plain_numbers [97; 49; 48; 98; 48]). apply pn_char; [unfold digit; lia|]. apply (pn_group [49; 48] [98; 48]);
    [discriminate|repeat constructor; unfold digit; lia|intros c s E; injection E as <- _; unfold digit; lia|right; discriminate|vm_compute; trivial|].
  apply pn_char; [unfold digit; lia|]. apply (pn_group [48] []);
    [discriminate|repeat constructor; unfold digit; lia|discriminate|left; trivial|vm_compute; trivial|constructor].
Qed.

(** ** C68: reading tokens *)

(** [number] has room for [max] characters and the terminator. *)
Theorem C68_read_integer (p s storage : list Z) (max : Z) :
  holds p s -> bytes s -> - 2 ^ 31 + 1 < max -> (Z.to_nat max < length storage)%nat ->
  exists t storage', longest_prefix integer_token s t /\
    read_integer p storage max = Ret (storage', length (firstn (Z.to_nat max) t)) /\
    stored storage (firstn (Z.to_nat max) t) storage'.
Proof.
  intros H B M L. destruct (read_integer_ok p s storage max H B M L) as (t & T & E).
  exists t. eexists. split; trivial. split; [exact E|]. apply written_stored. rewrite firstn_length. lia.
Qed.
Print Assumptions C68_read_integer.

Theorem C68_read_float (p s storage : list Z) (max : Z) :
  holds p s -> bytes s -> - 2 ^ 31 + 1 < max -> (Z.to_nat max < length storage)%nat ->
  exists t storage', longest_prefix float_token s t /\
    read_float p storage max = Ret (storage', length (firstn (Z.to_nat max) t)) /\
    stored storage (firstn (Z.to_nat max) t) storage'.
Proof.
  intros H B M L. destruct (read_float_ok p s storage max H B M L) as (t & T & E).
  exists t. eexists. split; trivial. split; [exact E|]. apply written_stored. rewrite firstn_length. lia.
Qed.
Print Assumptions C68_read_float.

(** Strings that do not start with a quote. *)
Theorem C68_read_plain (p s storage : list Z) (max : Z) :
  holds p s -> hd 0 s <> 34 -> - 2 ^ 31 < max -> (Z.to_nat max < length storage)%nat ->
  exists t storage', up_to string_ends s t /\
    read_string p storage max = Ret (storage', length (firstn (Z.to_nat max) t)) /\
    stored storage (firstn (Z.to_nat max) t) storage'.
Proof.
  intros (N & r & ->) Hd M L. exists (plain_run s). eexists. split; [apply plain_run_up_to|].
  unfold read_string. rewrite rd_app. cbn [bind]. rewrite max_rounds_ok by trivial. cbn [bind].
  destruct (Z.eqb_spec (hd 0 s) 34); [contradiction|]. split.
  - apply (read_plain_ok _ s r [] storage _ N eq_refl). rewrite firstn_length. lia.
  - apply written_stored. rewrite firstn_length. lia.
Qed.
Print Assumptions C68_read_plain.

(** Quoted strings: any text; then complete strings, strings cut by the bound, and
    strings cut by the end of the text. *)
Theorem C68_read_quoted (p s storage : list Z) (max : Z) :
  holds p (34 :: s) -> - 2 ^ 31 < max -> (Z.to_nat max < length storage)%nat ->
  (exists t storage' n, read_string p storage max = Ret (storage', n) /\ stored storage t storage' /\
     (length t <= Z.to_nat max)%nat /\ (length t < n)%nat /\ (n <= S (length s))%nat /\ (n <= S (Z.to_nat max))%nat) /\
  (forall b t rest, inside 34 b t -> s = b ++ 34 :: rest -> (length b < Z.to_nat max)%nat ->
     exists storage', read_string p storage max = Ret (storage', S (S (length b))) /\ stored storage t storage') /\
  (forall b t rest, inside 34 b t -> s = b ++ rest -> length b = Z.to_nat max \/ (length b < Z.to_nat max)%nat /\ rest = [] ->
     exists storage', read_string p storage max = Ret (storage', S (length b)) /\ stored storage t storage').
Proof.
  intros H M L. destruct (holds_cons _ _ _ H) as (p' & -> & _ & (N & r & ->)).
  unfold read_string. change (rd (34 :: s ++ 0 :: r) 0) with (Ret 34). cbn [bind]. rewrite max_rounds_ok by trivial. cbn [bind].
  change (34 =? 34) with true. cbv iota. change (skipn 1 (34 :: s ++ 0 :: r)) with (s ++ 0 :: r).
  assert (Le : forall b t, inside 34 b t -> (length t <= length b)%nat).
  { induction 1; simpl; lia. }
  split; [|split].
  - destruct (read_quoted_safe (Z.to_nat max) s r false [] storage 1 L) as (t & m & E & L1 & L2 & L3).
    exists t. do 2 eexists. split; [exact E|]. split; [apply written_stored; lia|]. simpl. lia.
  - intros b t rest I -> Lb. pose proof (Le b t I). apply Forall_app in N. destruct N as [Nb _].
    destruct (read_quoted_exact b t (rest ++ 0 :: r) (Z.to_nat max) storage I Nb ltac:(lia) ltac:(lia)) as [_ E].
    rewrite <- app_assoc. cbn [app]. rewrite (E Lb). eexists. split; [reflexivity|]. apply written_stored. lia.
  - intros b t rest I -> Lb. pose proof (Le b t I). apply Forall_app in N. destruct N as [Nb _].
    destruct (read_quoted_exact b t (rest ++ 0 :: r) (Z.to_nat max) storage I Nb ltac:(lia) ltac:(lia)) as [E _].
    rewrite <- app_assoc. rewrite E.
    + eexists. split; [reflexivity|]. apply written_stored. lia.
    + destruct Lb as [<-|[_ ->]]; [auto|]. right. split; [reflexivity|discriminate].
Qed.
Print Assumptions C68_read_quoted.

(** Types: any text; then complete and cut ones. *)
Theorem C68_read_type (p s : list Z) : holds p s -> bytes s ->
  (exists v n, read_type p = Ret (v, n) /\ (n <= length s)%nat) /\
  (hd 0 s <> 39 -> read_type p = Ret (0, O)) /\
  (forall b t rest, inside 39 b t -> s = 39 :: b ++ 39 :: rest -> read_type p = Ret (packed t mod 2 ^ 32, S (S (length b)))) /\
  (forall b t, inside 39 b t -> s = 39 :: b -> read_type p = Ret (packed t mod 2 ^ 32, S (length b))) /\
  (forall t, bytes t -> (length t <= 4)%nat -> packed t mod 2 ^ 32 = packed t).
Proof.
  intros H B. split; [|split; [|split; [|split]]].
  - unfold read_type. destruct s as [|c s].
    + destruct (holds_nil _ H) as (r & ->). exists 0, O. split; [reflexivity|]. lia.
    + destruct (holds_cons _ _ _ H) as (p' & -> & N & H'). unfold rd. cbn [nth_error bind skipn]. destruct (c =? 39).
      * destruct (read_type_safe s p' false 0 1 H') as (v & m & E & L). do 2 eexists. split; [exact E|]. simpl. lia.
      * exists 0, O. split; [reflexivity|]. lia.
  - intros N. destruct H as (_ & r & ->). unfold read_type. rewrite rd_app. cbn [bind].
    destruct (Z.eqb_spec (hd 0 s) 39); [contradiction|]. reflexivity.
  - intros b t rest I ->. destruct (holds_cons _ _ _ H) as (p' & -> & _ & (N & r & ->)).
    unfold read_type, rd. cbn [nth_error bind skipn]. change (39 =? 39) with true. cbv iota. rewrite <- app_assoc. cbn [app].
    apply Forall_app in N. destruct N as [Nb _]. inversion_clear B. apply bytes_app in H1. destruct H1 as [Bb _].
    change 0 with (u32 0) at 1. rewrite (read_type_inside b t I _ 0 1 Nb Bb). cbn [read_type_loop].
    change (39 =? 0) with false. change (negb (39 =? 92) || false) with true. change ((39 =? 39) && negb false) with true. cbv iota.
    unfold u32. change (2 ^ 32) with 4294967296. f_equal; f_equal; f_equal; lia.
  - intros b t I ->. destruct (holds_cons _ _ _ H) as (p' & -> & _ & (N & r & ->)).
    unfold read_type, rd. cbn [nth_error bind skipn]. change (39 =? 39) with true. cbv iota.
    inversion_clear B. pose proof (read_type_inside b t I (0 :: r) 0 1 N H1) as E. change (u32 0) with 0 in E. rewrite E. cbn [read_type_loop].
    change (0 =? 0) with true. cbv iota. unfold u32. change (2 ^ 32) with 4294967296. replace (0 * 256 ^ Z.of_nat (length t) + packed t) with (packed t) by lia. reflexivity.
  - intros t Bt L. apply Z.mod_small. pose proof (packed_range t Bt) as R.
    assert (256 ^ Z.of_nat (length t) <= 256 ^ 4) by (apply Z.pow_le_mono_r; lia). change (256 ^ 4) with (2 ^ 32) in *. lia.
Qed.
Print Assumptions C68_read_type.

(** The token read is determined. *)
Theorem C68_unique (s t t' : list Z) :
  (longest_prefix integer_token s t -> longest_prefix integer_token s t' -> t = t') /\
  (longest_prefix float_token s t -> longest_prefix float_token s t' -> t = t') /\
  (up_to string_ends s t -> up_to string_ends s t' -> t = t').
Proof.
  split; [|split].
  - apply prefix_unique. intros u v (t0 & B & [E|E]).
    + subst t0. apply Forall_app in B. exists u. tauto.
    + destruct u as [|c u]; [exists []; split; [constructor|auto]|]. simpl in E. injection E as -> <-. apply Forall_app in B. exists u. tauto.
  - assert (Pre : forall u v d e, float_body d e (u ++ v) -> float_body d e u).
    { induction u as [|c u IH]; intros v d e F; [constructor|]. simpl in F.
      inversion F; subst; [apply fb_digit|apply fb_point|apply fb_exp]; eauto. }
    apply prefix_unique. intros u v (t0 & B & [E|E]).
    + subst t0. exists u. split; [eapply Pre; eauto|auto].
    + destruct u as [|c u]; [exists []; split; [constructor|auto]|]. simpl in E. injection E as -> <-. exists u. split; [eapply Pre; eauto|auto].
  - apply up_to_unique.
Qed.
Print Assumptions C68_unique.

Example C68_e1 : read_integer (`"-120x" ++ [0]) (repeat 7 6) 5 = Ret ([45; 49; 50; 48; 0; 7], 4%nat).
Proof. reflexivity. Qed.
Example C68_e2 : read_float (`"1.5e3.7" ++ [0]) (repeat 7 8) 7 = Ret (`"1.5e3" ++ [0; 7; 7], 5%nat).
Proof. reflexivity. Qed.
Example C68_e3 : read_string ([34; 97; 92; 34; 98; 34; 99; 0]) (repeat 7 6) 5 = Ret ([97; 34; 98; 0; 7; 7], 6%nat).
Proof. reflexivity. Qed.
Example C68_e4 : read_string (`"a/b//c" ++ [0]) (repeat 7 6) 5 = Ret (`"a/b" ++ [0; 7; 7], 3%nat).
Proof. reflexivity. Qed.
Example C68_e5 : read_type (`"'JSON' x" ++ [0]) = Ret (0x4A534F4E, 6%nat).
Proof. reflexivity. Qed.

(** ** C69: ReadFloat reads decimal numbers *)

(** A minus sign in the exponent stops it: of 1e-5 it takes 1e. *)
Theorem C69_refuted : exists p s neg m x storage' n, holds p s /\ decimal s neg m x /\
  read_float p (repeat 7 10) 9 = Ret (storage', n) /\ (n < length s)%nat /\
  forall neg' m' x', ~ decimal (firstn n s) neg' m' x'.
Proof.
  exists (`"1e-5" ++ [0]), (`"1e-5"), false, 1, (-5). eexists _, _.
  split; [split; [repeat constructor; discriminate|exists []; reflexivity]|].
  split. { apply (decimal_intro [] false [49] [] [] [101; 45; 53] (-5)); try constructor; try discriminate; try constructor; unfold digit; try lia.
           apply (ex_some 101 [45] true [53]); [auto|constructor|constructor; [unfold digit; lia|constructor]|discriminate]. }
  split; [vm_compute; reflexivity|]. split; [simpl; lia|]. intros neg' m' x' D. simpl in D.
  change (firstn 2 (`"1e-5")) with [49; 101] in D.
  inversion D as [sg neg0 ip fr fp ex x Hs Hi Hf Hn He E]. subst.
  assert (Last : sg ++ ip ++ fr ++ ex = [49; 101] -> ex = [] -> False).
  { intros E0 ->. rewrite app_nil_r in E0.
    assert (I : In 101 (sg ++ ip ++ fr)) by (rewrite E0; simpl; auto).
    apply in_app_or in I. destruct I as [I|I].
    - inversion Hs; subst; simpl in I; lia.
    - apply in_app_or in I. destruct I as [I|I].
      + unfold digits in Hi. rewrite Forall_forall in Hi. specialize (Hi _ I). unfold digit in Hi. lia.
      + inversion Hf; subst; [destruct I|]. destruct I as [I|I]; [lia|]. unfold digits in H. rewrite Forall_forall in H.
        specialize (H _ I). unfold digit in H. lia. }
  inversion He as [|e sg' neg2 ds He1 He2 Hd Hne]; subst; [apply Last; trivial|].
  destruct ds as [|d ds]; [contradiction|].
  apply (f_equal (@length Z)) in E. rewrite !app_length in E. simpl in E. rewrite app_length in E. simpl in E.
  assert (length ip + length fr > 0)%nat; [|lia].
  destruct ip; [|simpl; lia]. destruct fr; [|simpl; lia]. inversion Hf; subst. contradiction.
Qed.
Print Assumptions C69_refuted.

Lemma decimal_nonempty t neg m x : decimal t neg m x -> t <> [].
Proof.
  intros D E. destruct D as [sg neg ip fr fp ex x Hs Hi Hf Hn He].
  apply app_eq_nil in E. destruct E as [_ E]. apply app_eq_nil in E. destruct E as [-> E]. apply app_eq_nil in E.
  destruct E as [-> _]. inversion Hf; subst. contradiction.
Qed.

(** Decimal literals without a sign in the exponent and without a leading plus are
    read completely, whatever follows them but another character of numbers. *)
Theorem C69_no_sign_partial (p s t rest storage : list Z) (neg : bool) (m x max : Z) :
  holds p s -> bytes s -> s = t ++ rest -> decimal t neg m x ->
  Forall (fun c => c <> 43) t -> (forall c, In c (tl t) -> c <> 45) ->
  (forall c, hd_error rest = Some c -> ~ digit c /\ c <> 46 /\ c <> 101 /\ c <> 69) ->
  (length t <= Z.to_nat max)%nat -> (Z.to_nat max < length storage)%nat ->
  exists storage', read_float p storage max = Ret (storage', length t) /\ stored storage t storage'.
Proof.
  intros H B -> D NP NM R L1 L2.
  assert (T : longest_prefix float_token (t ++ rest) t).
  { assert (Body : forall ip fr fp ex y, digits ip -> frac_text fr fp -> exp_text ex y -> Forall (fun c => c <> 43 /\ c <> 45) ex ->
      float_body true true (ip ++ fr ++ ex)).
    { assert (Dg : forall ds d e u, digits ds -> float_body d e u -> float_body d e (ds ++ u)).
      { induction ds as [|c ds IH]; intros d e u F U; simpl; trivial. inversion_clear F. apply fb_digit; trivial. apply IH; trivial. }
      assert (Ex : forall ex y d, exp_text ex y -> Forall (fun c => c <> 43 /\ c <> 45) ex -> float_body d true ex).
      { intros ex y d E F. inversion E as [|e sg ng ds E1 E2 E3 E4]; subst; [constructor|].
        inversion_clear F. inversion E2; subst; simpl in *; [|inversion_clear H1; lia|inversion_clear H1; lia].
        apply fb_exp; [unfold is_e; tauto|]. rewrite <- (app_nil_r ds). apply Dg; trivial. constructor. }
      intros ip fr fp ex y Hi Hf He F. apply Dg; trivial. inversion Hf; subst; simpl.
      - eapply Ex; eauto.
      - apply fb_point. apply Dg; trivial. eapply Ex; eauto. }
    assert (P : exists t', float_body true true t' /\ (t = t' /\ (forall u, t' <> 45 :: u) \/ t = 45 :: t')).
    { inversion D as [sg neg0 ip fr fp ex y Hs Hi Hf Hn He E]. subst.
      assert (Fex : sg ++ ip ++ fr <> [] -> Forall (fun c => c <> 43 /\ c <> 45) ex).
      { intros N0. apply Forall_forall. intros c I. split.
        - rewrite Forall_forall in NP. apply NP. rewrite !in_app_iff. auto.
        - apply NM. replace (sg ++ ip ++ fr ++ ex) with ((sg ++ ip ++ fr) ++ ex) by (rewrite <- !app_assoc; reflexivity).
          destruct (sg ++ ip ++ fr) as [|z u]; [contradiction|]. simpl. apply in_or_app. auto. }
      assert (N0 : ip ++ fr <> []).
      { intros E0. apply app_eq_nil in E0. destruct E0 as [-> ->]. inversion Hf; subst. contradiction. }
      assert (N1 : sg ++ ip ++ fr <> []) by (intros E0; apply app_eq_nil in E0; tauto).
      specialize (Fex N1). exists (ip ++ fr ++ ex). split; [eapply Body; eauto|].
      inversion Hs; subst.
      - left. split; [reflexivity|]. intros u E0. apply (f_equal (hd 0)) in E0. simpl in E0.
        destruct ip as [|c ip]; [destruct fr as [|c fr]; [contradiction|]|]; simpl in E0.
        + inversion Hf; subst. discriminate.
        + inversion Hi; subst. unfold digit in *. lia.
      - inversion NP; subst. contradiction.
      - right. reflexivity. }
    destruct P as (t' & Bt & Et).
    split; [exists t'; split; trivial; tauto|]. exists rest. split; trivial. intros c rest' -> (t2 & B2 & E2).
    destruct (R c eq_refl) as (R1 & R2 & R3 & R4).
    assert (No : forall u d e, ~ float_body d e (u ++ [c])).
    { induction u as [|z u IH]; intros d e F; simpl in F; inversion F; subst; try (eapply IH; eauto; fail); try contradiction.
      unfold is_e in *. lia. }
    destruct E2 as [E2|E2].
    - subst t2. destruct (No _ _ _ B2).
    - destruct Et as [[-> N45]| ->].
      + destruct t' as [|z u]; simpl in E2.
        * destruct (decimal_nonempty _ _ _ _ D eq_refl).
        * injection E2 as -> _. destruct (N45 u). reflexivity.
      + simpl in E2. injection E2 as <-. destruct (No _ _ _ B2). }
  assert (M : - 2 ^ 31 + 1 < max).
  { destruct t as [|c t]; [|simpl in L1; lia]. destruct (decimal_nonempty _ _ _ _ D eq_refl). }
  destruct (C68_read_float p (t ++ rest) storage max H B M L2) as (t2 & st & T2 & E & S).
  destruct (C68_unique (t ++ rest) t t2) as (_ & U & _). rewrite <- (U T T2), (firstn_all2 t) in E, S by lia. eauto.
Qed.
Print Assumptions C69_no_sign_partial.

Example C69_e1 : read_float (`"-12.5e3, " ++ [0]) (repeat 7 10) 9 = Ret (`"-12.5e3" ++ [0; 7; 7], 7%nat).
Proof. reflexivity. Qed.

(** ** C70: parts of paths *)

Theorem C70_resource (p s : list Z) : holds p s ->
  exists t, resource_name_length p = Ret (length t) /\ name_part s t.
Proof.
  intros H. unfold resource_name_length. rewrite (get_text_length_ok s p H). cbn [bind]. destruct H as (_ & r & ->).
  pose proof (resource_loop_ok (length s) s [] r eq_refl ltac:(constructor)) as G. rewrite app_nil_r in G. exact G.
Qed.
Print Assumptions C70_resource.

Theorem C70_directory (p s : list Z) : holds p s ->
  exists t, directory_path_length p = Ret (Z.of_nat (length t)) /\ directory_part s t.
Proof.
  intros (N & r & ->). unfold directory_path_length.
  apply (directory_loop_ok (S (length (s ++ 0 :: r))) [] s r N (or_introl eq_refl)). rewrite app_length. lia.
Qed.
Print Assumptions C70_directory.

(** The parts are determined. *)
Theorem C70_unique (s t t' : list Z) :
  (name_part s t -> name_part s t' -> t = t') /\ (directory_part s t -> directory_part s t' -> t = t').
Proof.
  assert (Split : forall (Q : Z -> Prop) (a b : list Z) x y u v, a ++ x :: u = b ++ y :: v -> ~ Q x -> ~ Q y -> Forall Q u -> Forall Q v ->
    a = b /\ x = y /\ u = v).
  { intros Q a. induction a as [|z a IH]; intros [|w b] x y u v E Nx Ny Fu Fv; simpl in E; injection E as E1 E2.
    - auto.
    - subst u. apply Forall_app in Fu. destruct Fu as [_ Fu]. inversion_clear Fu. contradiction.
    - subst v. apply Forall_app in Fv. destruct Fv as [_ Fv]. inversion_clear Fv. contradiction.
    - subst w. destruct (IH b x y u v E2 Nx Ny Fu Fv) as (-> & -> & ->). auto. }
  split.
  - intros H H'. inversion H as [pre ext F|dir last D F]; subst; inversion H' as [pre' ext' F' E|dir' last' D' F' E]; subst.
    + apply (Split (fun c => c <> 46 /\ c <> 47)) in E; try tauto; trivial. destruct E as (-> & _). reflexivity.
    + destruct D' as [->|(d & ->)].
      * simpl in E. subst last'. apply Forall_app in F'. destruct F' as [_ F']. inversion_clear F'. tauto.
      * rewrite <- app_assoc in E. simpl in E. apply (Split (fun c => c <> 46 /\ c <> 47)) in E; try tauto; trivial.
        destruct E as (_ & E & _). discriminate.
    + destruct D as [->|(d & ->)].
      * simpl in E. subst last. apply Forall_app in F. destruct F as [_ F]. inversion_clear F. tauto.
      * rewrite <- app_assoc in E. simpl in E. apply (Split (fun c => c <> 46 /\ c <> 47)) in E; try tauto; trivial.
        destruct E as (_ & E & _). discriminate.
    + congruence.
  - intros H H'. inversion H as [dir last D F]; subst; inversion H' as [dir' last' D' F' E]; subst.
    destruct D as [->|(d & ->)], D' as [->|(d' & ->)]; trivial; rewrite <- ?app_assoc in E; simpl in E.
    + subst last. apply Forall_app in F. destruct F as [_ F]. inversion_clear F. tauto.
    + subst last'. apply Forall_app in F'. destruct F' as [_ F']. inversion_clear F'. tauto.
    + apply (Split (fun c => c <> 47)) in E; try tauto; trivial. destruct E as (-> & _). reflexivity.
Qed.
Print Assumptions C70_unique.

Example C70_e1 : resource_name_length (`"a.b/file.tar.gz" ++ [0]) = Ret 12%nat /\ resource_name_length (`"a.b/file" ++ [0]) = Ret 8%nat /\
  directory_path_length (`"a/b/file" ++ [0]) = Ret 4 /\ directory_path_length (`"file" ++ [0]) = Ret 0.
Proof. vm_compute. repeat split. Qed.

(** ** C71: Hash *)

(** The hash is a 32 bit number that depends on the text only, and texts that differ
    in exactly one character have different hashes. *)
Theorem C71_hash (p q s : list Z) : holds p s -> holds q s ->
  exists h, hash_text p 0 = Ret h /\ hash_text q 0 = Ret h /\ 0 <= h < 2 ^ 32.
Proof.
  intros P Q. rewrite (hash_fold s p 0 P), (hash_fold s q 0 Q). eexists. repeat (split; [reflexivity|]).
  apply fold_range. lia.
Qed.
Print Assumptions C71_hash.

Theorem C71_one_change (p q a b : list Z) (x y : Z) : holds p (a ++ x :: b) -> holds q (a ++ y :: b) ->
  bytes (a ++ x :: b) -> is_byte y -> x <> y ->
  exists h k, hash_text p 0 = Ret h /\ hash_text q 0 = Ret k /\ h <> k.
Proof.
  intros P Q B Y N. rewrite (hash_fold _ p 0 P), (hash_fold _ q 0 Q). do 2 eexists. repeat (split; [reflexivity|]).
  rewrite !fold_left_app. cbn [fold_left]. intros E. apply bytes_app in B. destruct B as [_ B]. inversion_clear B.
  apply fold_inj in E; trivial; try apply hash_step_range.
  apply hash_step_inj_c in E; trivial; [contradiction|]. apply fold_range. lia.
Qed.
Print Assumptions C71_one_change.

Example C71_e1 : hash_text (`"key1" ++ [0]) 0 = Ret 3240980454 /\ hash_text (`"key2" ++ [0]) 0 <> hash_text (`"key1" ++ [0]) 0.
Proof. vm_compute. split; [reflexivity|discriminate]. Qed.
