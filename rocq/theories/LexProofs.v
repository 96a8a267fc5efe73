(** * Lexical level of the parser: white space, string tokens, number tokens. *)

From Verif Require Import Base TextModel NumModel MapModel ParserModel SpecUtf8 SpecNum SpecMap SpecGrammar
  TextProofs StrtodProofs RoundProofs.

#[local] Arguments Z.eqb : simpl nomatch.
#[local] Arguments Z.ltb : simpl nomatch.

(** ** Pointers *)

Lemma terminated_suffix s p : terminated (s ++ p) -> p <> [] -> terminated p.
Proof.
  induction s as [|c s IH]; simpl; intros H Hne; [auto|].
  apply IH; auto. apply terminated_cons in H; auto. destruct s; simpl; auto. discriminate.
Qed.

Lemma terminated_head p : terminated p -> exists c r, p = c :: r.
Proof. intros H. apply terminated_nonnil in H. destruct p; [congruence|eauto]. Qed.

Lemma bytes_app s p : bytes (s ++ p) <-> bytes s /\ bytes p.
Proof. apply Forall_app. Qed.

Lemma rd0 c r : rd (c :: r) 0 = Ret c.
Proof. reflexivity. Qed.

Lemma skipn_length_app {A} (s p : list A) : skipn (length s) (s ++ p) = p.
Proof. rewrite skipn_app, skipn_all, Nat.sub_diag. reflexivity. Qed.

(** ** White space *)

Lemma is_ws_spec c : reflect (wsc c) (is_ws c).
Proof.
  unfold is_ws, wsc.
  destruct ((c =? 32) || (c =? 9) || (c =? 10) || (c =? 13)) eqn:E; constructor; lia.
Qed.

(** There is a byte in front, and it is no white space. *)
Definition nonws_head (p : ptr) : Prop := exists c r, p = c :: r /\ ~ wsc c.

Lemma skip_ws_app w p : ws w -> nonws_head p -> skip_ws (w ++ p) = Ret p.
Proof.
  intros Hw Hp. unfold skip_ws.
  assert (E : compute_whitespace_length (w ++ p) = Ret (length w)).
  { induction Hw as [|c w Hc Hw IH]; simpl.
    - destruct Hp as (c & r & -> & Hc). simpl.
      destruct (is_ws_spec c); [tauto|]. now rewrite andb_false_r.
    - destruct (is_ws_spec c); [|tauto].
      assert ((c =? 0) = false) as -> by (unfold wsc in Hc; lia). simpl. rewrite IH. reflexivity. }
  rewrite E. cbn [bind]. now rewrite skipn_length_app.
Qed.

Lemma ws_split p : terminated p -> exists w p', p = w ++ p' /\ ws w /\ nonws_head p' /\ terminated p'.
Proof.
  intros H. assert (HL : exists n, (length p <= n)%nat) by eauto. destruct HL as [n HL]. revert p H HL.
  induction n as [|n IH]; intros p H HL.
  - destruct p; [apply terminated_nonnil in H; congruence|simpl in HL; lia].
  - destruct (terminated_head p H) as (c & r & ->).
    destruct (is_ws_spec c) as [Hc|Hc].
    + destruct (IH r) as (w & p' & -> & Hw & Hp & Ht).
      * eapply terminated_tail; [|exact H]. unfold wsc in Hc. lia.
      * simpl in HL. lia.
      * exists (c :: w), p'. repeat split; auto. constructor; auto.
    + exists [], (c :: r). repeat split; auto; [constructor|]. exists c, r. auto.
Qed.

Lemma skip_ws_spec p : terminated p ->
  exists w p', skip_ws p = Ret p' /\ p = w ++ p' /\ ws w /\ nonws_head p' /\ terminated p'.
Proof.
  intros H. destruct (ws_split p H) as (w & p' & -> & Hw & Hp & Ht).
  exists w, p'. rewrite skip_ws_app; auto.
Qed.

Lemma ws_nil_head w p : ws w -> nonws_head (w ++ p) -> w = [].
Proof.
  intros Hw (c & r & E & Hc). destruct Hw; [auto|]. simpl in E. injection E as -> _. tauto.
Qed.

(** The split is unique. *)
Lemma ws_unique w p w' p' : w ++ p = w' ++ p' -> ws w -> ws w' -> nonws_head p -> nonws_head p' -> w = w' /\ p = p'.
Proof.
  intros E Hw. revert w' E. induction Hw as [|c w Hc Hw IH]; intros w' E Hw' Hp Hp'.
  - simpl in E. subst p. apply ws_nil_head in Hp; auto. subst. auto.
  - destruct Hw' as [|c' w' Hc' Hw'].
    + simpl in E. subst p'. destruct Hp' as (x & r & E & Hx). injection E as -> _. tauto.
    + simpl in E. injection E as -> E. destruct (IH w' E) as [-> ->]; auto.
Qed.

(** ** Float runs *)

Lemma is_float_char_spec c : reflect (float_char c) (is_float_char c).
Proof.
  unfold is_float_char, float_char, digit.
  destruct (((48 <=? c) && (c <=? 57)) || (c =? 46) || (c =? 101) || (c =? 69) || (c =? 43) || (c =? 45)) eqn:E;
    constructor; lia.
Qed.

Definition nonfloat_head (p : ptr) : Prop := exists c r, p = c :: r /\ ~ float_char c.

Lemma float_len_app run p : Forall float_char run -> nonfloat_head p ->
  compute_float_literal_length (run ++ p) = Ret (length run).
Proof.
  intros Hw Hp. induction Hw as [|c w Hc Hw IH]; simpl.
  - destruct Hp as (c & r & -> & Hc). simpl.
    destruct (is_float_char_spec c); [tauto|]. now rewrite andb_false_r.
  - destruct (is_float_char_spec c); [|tauto].
    assert ((c =? 0) = false) as -> by (unfold float_char, digit in Hc; lia). simpl. rewrite IH. reflexivity.
Qed.

Lemma float_split p : terminated p ->
  exists run p', p = run ++ p' /\ Forall float_char run /\ nonfloat_head p' /\ terminated p'.
Proof.
  intros H. assert (HL : exists n, (length p <= n)%nat) by eauto. destruct HL as [n HL]. revert p H HL.
  induction n as [|n IH]; intros p H HL.
  - destruct p; [apply terminated_nonnil in H; congruence|simpl in HL; lia].
  - destruct (terminated_head p H) as (c & r & ->).
    destruct (is_float_char_spec c) as [Hc|Hc].
    + destruct (IH r) as (w & p' & -> & Hw & Hp & Ht).
      * eapply terminated_tail; [|exact H]. unfold float_char, digit in Hc. lia.
      * simpl in HL. lia.
      * exists (c :: w), p'. repeat split; auto.
    + exists [], (c :: r). repeat split; auto. exists c, r. auto.
Qed.

Lemma rds_app s p : rds (s ++ p) (length s) = Ret s.
Proof. induction s; simpl; [destruct p; reflexivity|]. rewrite IHs. reflexivity. Qed.

(** ** Hexadecimal escapes *)

Definition hex_lookup (b : Z) : out (option Z) :=
  let c := u32 (b - 48) in
  if 55 <=? c then Ret None
  else match nth_error hexadecimal_char_value (Z.to_nat c) with
       | None => UB
       | Some x => if x <? 0 then Ret None else Ret (Some x)
       end.

Lemma hex_lookup_ok b : is_byte b -> hex_lookup b = Ret (hex_digit b).
Proof.
  sweep (fun b => match hex_lookup b with
                  | Ret o => match o, hex_digit b with
                             | None, None => true | Some x, Some y => x =? y | _, _ => false end
                  | _ => false end).
  intros Hb. specialize (H b Hb). cbv beta in H. destruct (hex_lookup b) as [o| |]; try discriminate.
  destruct o, (hex_digit b); try discriminate; try reflexivity. apply Z.eqb_eq in H. congruence.
Qed.

Lemma hex_digit_range b x : hex_digit b = Some x -> 0 <= x < 16 /\ is_byte b /\ b <> 0.
Proof.
  unfold hex_digit, is_byte. destruct ((48 <=? b) && (b <=? 57)) eqn:E1.
  { intros H; injection H as <-. lia. }
  destruct ((65 <=? b) && (b <=? 70)) eqn:E2.
  { intros H; injection H as <-. lia. }
  destruct ((97 <=? b) && (b <=? 102)) eqn:E3; [|discriminate].
  intros H; injection H as <-. lia.
Qed.

Lemma read_hex_step n a code p b : nth_error p a = Some b -> is_byte b -> 0 <= code < 2 ^ 28 ->
  read_hex (S n) a code p =
  match hex_digit b with
  | None => Ret None
  | Some x => read_hex n (S a) (code * 16 + x) p
  end.
Proof.
  intros Hn Hb Hc. pose proof (hex_lookup_ok b Hb) as Hx. unfold hex_lookup in Hx.
  cbn [read_hex]. unfold rd. rewrite Hn. cbn [bind].
  destruct (55 <=? u32 (b - 48)).
  - destruct (hex_digit b); [discriminate|reflexivity].
  - destruct (nth_error hexadecimal_char_value (Z.to_nat (u32 (b - 48)))) as [x|]; [|discriminate].
    destruct (x <? 0) eqn:Ex; [destruct (hex_digit b); [discriminate|reflexivity]|].
    injection Hx as Hx. rewrite <- Hx. f_equal.
    assert (H : 0 <= x < 16) by (eapply hex_digit_range; eauto).
    rewrite Z.shiftl_mul_pow2 by lia. rewrite u32_small by (change (2 ^ 28) with 268435456 in Hc; change (2 ^ 4) with 16; lia).
    rewrite lor_add; [reflexivity|lia|]. change (2 ^ 4) with 16. lia.
Qed.

Lemma hex4_range h cp : hex4 h cp -> 0 <= cp < 65536 /\ length h = 4%nat /\ bytes h /\ nul_free h.
Proof.
  intros H. destruct H as [a b c d x y z w H1 H2 H3 H4].
  apply hex_digit_range in H1, H2, H3, H4.
  split; [lia|]. split; [reflexivity|].
  split; repeat constructor; unfold is_byte in *; lia.
Qed.

Lemma read_hex_complete h cp c0 rest : hex4 h cp -> read_hex 4 1 0 (c0 :: h ++ rest) = Ret (Some cp).
Proof.
  intros H. destruct H as [a b c d x y z w H1 H2 H3 H4].
  pose proof (hex_digit_range _ _ H1) as R1. pose proof (hex_digit_range _ _ H2) as R2.
  pose proof (hex_digit_range _ _ H3) as R3. pose proof (hex_digit_range _ _ H4) as R4.
  change (2 ^ 28) with 268435456.
  simpl app.
  rewrite (read_hex_step 3 1 0 _ a) by (auto; try reflexivity; try tauto; lia). rewrite H1.
  rewrite (read_hex_step 2 2 _ _ b) by (auto; try reflexivity; try tauto; lia). rewrite H2.
  rewrite (read_hex_step 1 3 _ _ c) by (auto; try reflexivity; try tauto; lia). rewrite H3.
  rewrite (read_hex_step 0 4 _ _ d) by (auto; try reflexivity; try tauto; lia). rewrite H4.
  reflexivity.
Qed.

Lemma read_hex_spec c0 p : c0 <> 0 -> terminated (c0 :: p) -> bytes p ->
  exists o, read_hex 4 1 0 (c0 :: p) = Ret o /\
    match o with
    | None => True
    | Some cp => exists h rest, p = h ++ rest /\ hex4 h cp
    end.
Proof.
  intros H0 HT HB.
  apply terminated_tail in HT; auto.
  destruct (terminated_head p HT) as (a & p1 & ->). inversion HB as [|? ? Ba HB1]; subst.
  rewrite (read_hex_step 3 1 0 _ a) by (auto; lia).
  destruct (hex_digit a) as [x|] eqn:Ea; [|exists None; auto].
  pose proof (hex_digit_range _ _ Ea) as Ra. apply terminated_tail in HT; [|tauto].
  destruct (terminated_head p1 HT) as (b & p2 & ->). inversion HB1 as [|? ? Bb HB2]; subst.
  rewrite (read_hex_step 2 2 _ _ b) by (auto; lia).
  destruct (hex_digit b) as [y|] eqn:Eb; [|exists None; auto].
  pose proof (hex_digit_range _ _ Eb) as Rb. apply terminated_tail in HT; [|tauto].
  destruct (terminated_head p2 HT) as (c & p3 & ->). inversion HB2 as [|? ? Bc HB3]; subst.
  rewrite (read_hex_step 1 3 _ _ c) by (auto; lia).
  destruct (hex_digit c) as [z|] eqn:Ec; [|exists None; auto].
  pose proof (hex_digit_range _ _ Ec) as Rc. apply terminated_tail in HT; [|tauto].
  destruct (terminated_head p3 HT) as (d & p4 & ->). inversion HB3 as [|? ? Bd HB4]; subst.
  rewrite (read_hex_step 0 4 _ _ d) by (auto; lia).
  destruct (hex_digit d) as [w|] eqn:Ed; [|exists None; auto].
  exists (Some (((x * 16 + y) * 16 + z) * 16 + w)). split; [reflexivity|].
  exists [a; b; c; d], p4. split; [reflexivity|]. constructor; auto.
Qed.

(** ** Escapes *)

Lemma short_escape_read c x r : short_escape c x -> read_escape_char (c :: r) = Ret (1%nat, x) /\ c <> 117.
Proof. intros H. destruct H; split; try reflexivity; lia. Qed.

Lemma read_escape_spec c r : exists n x, read_escape_char (c :: r) = Ret (n, x) /\
  (n = 0%nat \/ n = 1%nat /\ short_escape c x).
Proof.
  unfold read_escape_char. rewrite rd0. cbn [bind].
  destruct ((c =? 34) || (c =? 92) || (c =? 47)) eqn:E.
  { exists 1%nat, c. split; [reflexivity|]. right. split; [reflexivity|].
    assert (c = 34 \/ c = 92 \/ c = 47) as [->|[->| ->]] by lia; constructor. }
  destruct (Z.eqb_spec c 98); [subst; do 2 eexists; split; [reflexivity|right; split; constructor]|].
  destruct (Z.eqb_spec c 102); [subst; do 2 eexists; split; [reflexivity|right; split; constructor]|].
  destruct (Z.eqb_spec c 110); [subst; do 2 eexists; split; [reflexivity|right; split; constructor]|].
  destruct (Z.eqb_spec c 114); [subst; do 2 eexists; split; [reflexivity|right; split; constructor]|].
  destruct (Z.eqb_spec c 116); [subst; do 2 eexists; split; [reflexivity|right; split; constructor]|].
  do 2 eexists. split; [reflexivity|auto].
Qed.

Lemma short_escape_pos c x : short_escape c x -> 0 < x < 128 /\ 0 < c < 128.
Proof. intros H; destruct H; lia. Qed.

(** ** String tokens: completeness *)

Lemma utf8_head_raw cp : lib_raw cp ->
  exists c r, utf8 cp = c :: r /\ c <> 0 /\ c <> 34 /\ c <> 92 /\ c <> 127 /\ 32 <= c.
Proof.
  intros [H1 H2]. unfold code_point in H1. unfold utf8.
  assert (0 <= cp / 64) by (apply Z.div_pos; lia).
  assert (0 <= cp / 4096) by (apply Z.div_pos; lia).
  assert (0 <= cp / 262144) by (apply Z.div_pos; lia).
  destruct (Z.ltb_spec cp 128); [exists cp, []; repeat split; lia|].
  destruct (Z.ltb_spec cp 2048); [do 2 eexists; split; [reflexivity|]; lia|].
  destruct (Z.ltb_spec cp 65536); [do 2 eexists; split; [reflexivity|]; lia|].
  do 2 eexists; split; [reflexivity|]; lia.
Qed.

Lemma esc_units code : 0 <= code < 65536 ->
  (1 + (if (0x80 <=? code)%Z then 1 else 0) + (if (0x800 <=? code)%Z then 1 else 0))%nat = length (utf8 code).
Proof.
  intros H. unfold utf8.
  destruct (Z.leb_spec 128 code), (Z.ltb_spec code 128), (Z.leb_spec 2048 code), (Z.ltb_spec code 2048); try lia; try reflexivity.
  destruct (Z.ltb_spec code 65536); [reflexivity|lia].
Qed.

(** Result of writing [s] to a destination with room for it. *)
Definition room (dst : dest) (s : list Z) (dst' : dest) : Prop :=
  match dst with
  | None => dst' = None
  | Some (b, i) => exists b1 bs b2, b = b1 ++ bs ++ b2 /\ i = length b1 /\ length bs = length s /\
                     dst' = Some (b1 ++ s ++ b2, (i + length s)%nat)
  end.

Lemma put_room dst s dst' : room dst s dst' -> put dst s = Ret dst'.
Proof.
  destruct dst as [[b i]|]; simpl; [|intros ->; reflexivity].
  intros (b1 & bs & b2 & -> & -> & Hl & ->). rewrite wrs_app by auto. reflexivity.
Qed.

Lemma room_app dst s1 s2 dst' : room dst (s1 ++ s2) dst' -> exists d1, room dst s1 d1 /\ room d1 s2 dst'.
Proof.
  destruct dst as [[b i]|]; simpl.
  - intros (b1 & bs & b2 & -> & -> & Hl & ->). rewrite app_length in Hl.
    exists (Some (b1 ++ s1 ++ skipn (length s1) bs ++ b2, (length b1 + length s1)%nat)). split.
    + exists b1, (firstn (length s1) bs), (skipn (length s1) bs ++ b2).
      split; [rewrite (app_assoc (firstn _ _)), firstn_skipn; reflexivity|].
      split; [reflexivity|]. split; [rewrite firstn_length; lia|reflexivity].
    + exists (b1 ++ s1), (skipn (length s1) bs), b2.
      split; [now rewrite <- app_assoc|]. split; [now rewrite app_length|].
      split; [rewrite skipn_length; lia|].
      f_equal. f_equal; [now rewrite <- !app_assoc|rewrite app_length; lia].
  - intros ->. exists None. split; reflexivity.
Qed.

Lemma room_none_iff dst s dst' : room dst s dst' -> dst = None -> dst' = None.
Proof. intros H ->. exact H. Qed.

Lemma escape_hex_ok h cp rest dst dst' : hex4 h cp -> cp <> 0 -> room dst (utf8 cp) dst' ->
  read_string_escape_char (117 :: h ++ rest) dst = Ret (5%nat, length (utf8 cp), dst').
Proof.
  intros Hh Hc Hr. unfold read_string_escape_char. rewrite rd0. cbn [bind]. change (117 =? 117) with true. cbv iota.
  rewrite (read_hex_complete h cp 117 rest Hh). cbn [bind].
  destruct (hex4_range _ _ Hh) as (R & _).
  destruct (Z.eqb_spec cp 0); [congruence|]. simpl negb. cbv iota.
  destruct dst as [d|].
  - rewrite write_utf8 by (unfold code_point; lia). rewrite (put_room _ _ _ Hr). reflexivity.
  - rewrite esc_units by lia. simpl in Hr. subst. reflexivity.
Qed.

Lemma escape_short_ok c x rest dst dst' : short_escape c x -> room dst [x] dst' ->
  read_string_escape_char (c :: rest) dst = Ret (1%nat, 1%nat, dst').
Proof.
  intros Hs Hr. unfold read_string_escape_char. rewrite rd0. cbn [bind].
  destruct (short_escape_read c x rest Hs) as [E1 E2].
  destruct (Z.eqb_spec c 117); [congruence|]. rewrite E1. cbn [bind]. simpl Nat.eqb. cbv iota beta. simpl negb. cbv iota.
  rewrite (put_room _ _ _ Hr). reflexivity.
Qed.

Lemma skipn5 (c : Z) h r : length h = 4%nat -> skipn 5 (c :: h ++ r) = r.
Proof. intros H. do 4 (destruct h as [|? h]; [discriminate|]). destruct h; [reflexivity|discriminate]. Qed.

Lemma ret_lens (st : status) a a' b b' (d : dest) : a = a' -> b = b' ->
  Ret (st, Some (a, b) : option (nat * nat), d) = Ret (st, Some (a', b'), d).
Proof. intros -> ->. reflexivity. Qed.

Lemma string_complete t s : lib_str t s -> forall fuel rest tl sl dst dst',
  (length t < fuel)%nat -> room dst s dst' ->
  read_string_literal fuel (t ++ 34 :: rest) tl sl dst = Ret (kOk, Some ((tl + length t)%nat, (sl + length s)%nat), dst').
Proof.
  intros H. unfold lib_str in H.
  induction H as [|cp t s Hraw Hb IH|c x t s Hs Hb IH|h cp t s Hh Hu Hb IH]; intros fuel rest tl sl dst dst' Hf Hr.
  - destruct fuel; [simpl in Hf; lia|]. simpl app. cbn [read_string_literal]. rewrite rd0. cbn [bind].
    change (34 =? 0) with false. change (34 =? 34) with true. cbv iota. simpl length. rewrite !Nat.add_0_r.
    destruct dst as [[b i]|]; simpl in Hr.
    + destruct Hr as (b1 & bs & b2 & -> & -> & Hl & ->). destruct bs; [|discriminate]. simpl. rewrite Nat.add_0_r. reflexivity.
    + subst. reflexivity.
  - destruct fuel; [simpl in Hf; lia|]. rewrite <- app_assoc. rewrite app_length in Hf.
    destruct (utf8_head_raw cp Hraw) as (c & r & E & C1 & C2 & C3 & C4 & C5).
    destruct (validate_complete cp (t ++ 34 :: rest)) as [Hv _]; [apply Hraw|].
    pose proof (utf8_length_bounds cp) as Hlen.
    cbn [read_string_literal].
    assert (rd (utf8 cp ++ t ++ 34 :: rest) 0 = Ret c) as -> by (rewrite E; reflexivity). cbn [bind].
    destruct (Z.eqb_spec c 0); [lia|]. destruct (Z.eqb_spec c 34); [lia|].
    destruct ((c <? 32) || (c =? 127)) eqn:E3; [lia|].
    destruct (Z.eqb_spec c 92); [lia|]. simpl negb. cbv iota.
    rewrite Hv. cbn [bind]. destruct (Nat.eqb_spec (length (utf8 cp)) 0); [lia|].
    destruct (room_app _ _ _ _ Hr) as (d1 & R1 & R2).
    assert (Hd : match dst with
                 | None => Ret None
                 | Some _ => let! s0 := rds (utf8 cp ++ t ++ 34 :: rest) (length (utf8 cp)) in put dst s0
                 end = Ret d1).
    { destruct dst as [d|]; [rewrite rds_app; cbn [bind]; now apply put_room|simpl in R1; subst; reflexivity]. }
    rewrite Hd. cbn [bind]. rewrite skipn_length_app.
    rewrite IH with (dst' := dst') by (auto; lia).
    rewrite !app_length. apply ret_lens; lia.
  - destruct fuel; [simpl in Hf; lia|]. simpl app. simpl in Hf. cbn [read_string_literal]. rewrite rd0. cbn [bind].
    change (92 =? 0) with false. change (92 =? 34) with false. change ((92 <? 32) || (92 =? 127)) with false.
    change (negb (92 =? 92)) with false. cbv iota. simpl skipn at 1. cbv zeta.
    destruct (room_app _ [x] s _ Hr) as (d1 & R1 & R2).
    rewrite (escape_short_ok c x _ dst d1) by auto. cbn [bind]. simpl Nat.eqb. cbv iota.
    simpl skipn. rewrite IH with (dst' := dst') by (auto; lia). simpl length. apply ret_lens; lia.
  - destruct fuel; [simpl in Hf; lia|]. simpl app. simpl in Hf. cbn [read_string_literal]. rewrite rd0. cbn [bind].
    change (92 =? 0) with false. change (92 =? 34) with false. change ((92 <? 32) || (92 =? 127)) with false.
    change (negb (92 =? 92)) with false. cbv iota. simpl skipn at 1. cbv zeta.
    destruct (room_app _ (utf8 cp) s _ Hr) as (d1 & R1 & R2).
    destruct (hex4_range _ _ Hh) as (_ & HL & _).
    rewrite <- app_assoc.
    rewrite (escape_hex_ok h cp _ dst d1) by auto. cbn [bind]. simpl Nat.eqb. cbv iota.
    assert (skipn 5 (skipn 1 (92 :: 117 :: h ++ t ++ 34 :: rest)) = t ++ 34 :: rest) as ->.
    { apply (skipn5 117); auto. }
    rewrite app_length in Hf.
    rewrite IH with (dst' := dst') by (auto; lia). simpl length. rewrite !app_length, HL. apply ret_lens; lia.
Qed.

(** ** String tokens: soundness of the first pass *)

Definition bad_string (st : status) : Prop :=
  st = kPrematureNullTerminator \/ st = kStringIllegalChar \/ st = kStringIllegalEscape.

Lemma string_sound fuel : forall p tl sl, terminated p -> bytes p -> (length p <= fuel)%nat ->
  (exists st, read_string_literal fuel p tl sl None = Ret (st, None, None) /\ bad_string st) \/
  (exists t s rest, p = t ++ 34 :: rest /\ lib_str t s).
Proof.
  induction fuel as [|fuel IH]; intros p tl sl HT HB HL.
  { destruct p; [apply terminated_nonnil in HT; congruence|simpl in HL; lia]. }
  destruct (terminated_head p HT) as (c & r & E). subst p.
  inversion HB as [|? ? Bc HBr]; subst. unfold is_byte in Bc.
  cbn [read_string_literal]. rewrite rd0. cbn [bind].
  destruct (Z.eqb_spec c 0) as [H0|H0]; [left; exists kPrematureNullTerminator; split; [reflexivity|left; auto]|].
  destruct (Z.eqb_spec c 34) as [H34|H34]; [right; exists [], [], r; split; [subst; reflexivity|constructor]|].
  destruct ((c <? 32) || (c =? 127)) eqn:E3; [left; eexists; split; [reflexivity|unfold bad_string; auto]|].
  destruct (Z.eqb_spec c 92) as [H92|H92]; simpl negb; cbv iota.
  - (* escape *)
    subst c. simpl skipn at 1. cbv zeta.
    assert (HTr : terminated r) by (eapply terminated_tail; eauto).
    destruct (terminated_head r HTr) as (e & q & E). subst r.
    inversion HBr as [|? ? Be HBq]; subst. simpl in HL.
    unfold read_string_escape_char at 1. cbn [skipn]. rewrite rd0. cbn [bind].
    destruct (Z.eqb_spec e 117) as [He|He].
    + subst e. destruct (read_hex_spec 117 q ltac:(lia) HTr HBq) as (o & Eo & Ho). rewrite Eo. cbn [bind].
      destruct o as [cp|]; [|left; eexists; split; [reflexivity|unfold bad_string; auto]].
      destruct Ho as (h & q' & -> & Hh).
      destruct (hex4_range h cp Hh) as (R1 & R2 & R3 & R4).
      destruct (Z.eqb_spec cp 0) as [Hz|Hz]; simpl negb; cbv iota; cbn [bind].
      { left; eexists; split; [reflexivity|unfold bad_string; auto]. }
      simpl Nat.eqb. cbv iota.
      assert (skipn 5 (117 :: h ++ q') = q') as ->.
      { apply (skipn5 117); auto. }
      assert (HTq : terminated q').
      { assert (HTq : terminated (h ++ q')) by (eapply terminated_tail; [|exact HTr]; lia).
        apply terminated_suffix in HTq; auto. intros ->. rewrite app_nil_r in *.
        apply terminated_nonnil in HTq as HN. destruct HTq as [z Hz']. rewrite Hz' in R4.
        apply Forall_app in R4. destruct R4 as [_ R4]. inversion R4. congruence. }
      apply bytes_app in HBq. destruct HBq as [_ HBq].
      rewrite app_length in HL.
      destruct (IH q' (tl + 1 + 5)%nat (sl + (1 + (if (0x80 <=? cp)%Z then 1 else 0) + (if (0x800 <=? cp)%Z then 1 else 0)))%nat HTq HBq ltac:(lia)) as [(st & Es & Hs)|(t & s & rest & -> & Hs)].
      * left. exists st. auto.
      * right. exists (92 :: 117 :: h ++ t), (utf8 cp ++ s), rest. split; [simpl; now rewrite <- app_assoc|].
        apply sb_hex; auto.
    + destruct (read_escape_spec e q) as (n & x & En & Hn). rewrite En. cbn [bind].
      destruct Hn as [->|[-> Hs]].
      { left; eexists; split; [reflexivity|unfold bad_string; auto]. }
      simpl Nat.eqb. simpl negb. cbv iota. cbn [put bind]. simpl Nat.eqb. cbv iota. simpl skipn.
      pose proof (short_escape_pos e x Hs).
      assert (HTq : terminated q) by (eapply terminated_tail; [|exact HTr]; lia).
      destruct (IH q (tl + 1 + 1)%nat (sl + 1)%nat HTq HBq ltac:(lia)) as [(st & Es & Hst)|(t & s & rest & -> & Ht)].
      * left. exists st. auto.
      * right. exists (92 :: e :: t), (x :: s), rest. split; [reflexivity|]. apply sb_esc; auto.
  - destruct (validate_safe (c :: r) HT HB) as (n & En & Hn). rewrite En. cbn [bind].
    destruct (Nat.eqb_spec n 0) as [Hn0|Hn0].
    { left; eexists; split; [reflexivity|unfold bad_string; auto]. }
    destruct (validate_sound (c :: r) n HB En Hn0) as (cp & q & Hcp & E & Hlen).
    rewrite E, Hlen, skipn_length_app. rewrite E in HT, HB, HL.
    assert (Hraw : lib_raw cp).
    { split; [auto|]. unfold code_point in Hcp. unfold utf8 in E.
      destruct (Z.ltb_spec cp 128); [|lia]. simpl in E. injection E as -> _. lia. }
    pose proof (utf8_length_bounds cp) as Hlb. rewrite app_length in HL.
    apply bytes_app in HB. destruct HB as [HB1 HB2].
    assert (HTq : terminated q).
    { apply terminated_suffix in HT; auto. intros ->. rewrite app_nil_r in *.
      destruct HT as [z Hz]. destruct (utf8_head_raw cp Hraw) as (c' & r' & E' & Hc0 & _).
      assert (Hnf : nul_free (utf8 cp)).
      { clear - Hraw. destruct Hraw as [H1 H2]. unfold code_point in H1. unfold utf8.
        assert (0 <= cp mod 64 < 64) by (apply Z.mod_pos_bound; lia).
        assert (0 <= cp / 64 mod 64 < 64) by (apply Z.mod_pos_bound; lia).
        assert (0 <= cp / 4096 mod 64 < 64) by (apply Z.mod_pos_bound; lia).
        assert (0 <= cp / 64) by (apply Z.div_pos; lia).
        assert (0 <= cp / 4096) by (apply Z.div_pos; lia).
        assert (0 <= cp / 262144) by (apply Z.div_pos; lia).
        destruct (Z.ltb_spec cp 128); [repeat constructor; lia|].
        destruct (Z.ltb_spec cp 2048); [repeat constructor; lia|].
        destruct (Z.ltb_spec cp 65536); repeat constructor; lia. }
      rewrite Hz in Hnf. apply Forall_app in Hnf. destruct Hnf as [_ Hnf]. inversion Hnf. congruence. }
    destruct (IH q (tl + length (utf8 cp))%nat (sl + length (utf8 cp))%nat HTq HB2 ltac:(lia)) as [(st & Es & Hst)|(t & s & rest & -> & Ht)].
    + left. exists st. split; [|auto]. cbn [bind]. exact Es.
    + right. exists (utf8 cp ++ t), (utf8 cp ++ s), rest. split; [now rewrite <- app_assoc|]. apply sb_raw; auto.
Qed.

(** The characters of a token's value. *)
Lemma utf8_pos cp : code_point cp -> cp <> 0 -> good_key (utf8 cp).
Proof.
  intros H1 H2. unfold code_point in H1. unfold utf8, good_key.
  assert (0 <= cp mod 64 < 64) by (apply Z.mod_pos_bound; lia).
  assert (0 <= cp / 64 mod 64 < 64) by (apply Z.mod_pos_bound; lia).
  assert (0 <= cp / 4096 mod 64 < 64) by (apply Z.mod_pos_bound; lia).
  assert (0 <= cp / 64) by (apply Z.div_pos; lia).
  assert (0 <= cp / 4096) by (apply Z.div_pos; lia).
  assert (0 <= cp / 262144) by (apply Z.div_pos; lia).
  destruct (Z.ltb_spec cp 128); [repeat constructor; lia|].
  destruct (Z.ltb_spec cp 2048); [repeat constructor; lia|].
  destruct (Z.ltb_spec cp 65536); repeat constructor; lia.
Qed.

Lemma lib_str_good t s : lib_str t s -> good_key s.
Proof.
  intros H. induction H as [|cp t s Hraw Hb IH|c x t s Hs Hb IH|h cp t s Hh Hu Hb IH].
  - constructor.
  - apply Forall_app. split; [|auto]. apply utf8_pos; [apply Hraw|]. destruct Hraw. lia.
  - constructor; [apply short_escape_pos in Hs; lia|auto].
  - apply Forall_app. split; [|auto]. apply hex4_range in Hh. apply utf8_pos; [unfold code_point; lia|auto].
Qed.

Lemma lib_str_bytes t s : lib_str t s -> bytes t /\ bytes s.
Proof.
  intros H. induction H as [|cp t s Hraw Hb IH|c x t s Hs Hb IH|h cp t s Hh Hu Hb IH].
  - split; constructor.
  - rewrite !bytes_app. destruct Hraw. pose proof (utf8_bytes cp ltac:(auto)). tauto.
  - apply short_escape_pos in Hs. unfold bytes in *.
    split; repeat constructor; unfold is_byte; try lia; tauto.
  - destruct (hex4_range _ _ Hh) as (R & _ & HB & _). unfold bytes in *. 
    pose proof (utf8_bytes cp ltac:(unfold code_point; lia)) as HU.
    split; [constructor; [unfold is_byte; lia|constructor; [unfold is_byte; lia|]]|]; apply Forall_app; tauto.
Qed.

Lemma cstr_good s r : good_key s -> cstr (s ++ 0 :: r) = s.
Proof.
  induction 1 as [|c s Hc Hs IH]; simpl; [reflexivity|].
  destruct (Z.eqb_spec c 0); [lia|]. now rewrite IH.
Qed.

Lemma string_parse_complete t s rest : lib_str t s -> string_parse (34 :: t ++ 34 :: rest) = Ret (kOk, s, rest).
Proof.
  intros H. unfold string_parse. rewrite rd0. cbn [bind]. change (negb (34 =? 34)) with false. cbv iota. cbv zeta.
  cbn [skipn].
  rewrite (string_complete t s H _ rest 0 0 None None) by (try reflexivity; rewrite app_length; simpl; lia).
  cbn [bind]. rewrite !Nat.add_0_l.
  rewrite (string_complete t s H _ rest 0 0 (Some (repeat 170 (length s) ++ [0], O)) (Some (s ++ [0], length s))).
  2:{ rewrite app_length; simpl; lia. }
  2:{ exists [], (repeat 170 (length s)), [0]. rewrite repeat_length. repeat split; reflexivity. }
  cbn [bind]. rewrite !Nat.add_0_l. rewrite skipn_length_app. rewrite rd0. cbn [bind].
  change (negb (34 =? 34)) with false. cbv iota. cbn [skipn].
  rewrite cstr_good; [reflexivity|]. eapply lib_str_good; eauto.
Qed.

Lemma string_parse_spec p : terminated p -> bytes p ->
  (string_parse p = Ret (kExpectedBeginingDoubleQuotes, [], p) /\ (forall r, p <> 34 :: r)) \/
  (exists st r, p = 34 :: r /\ string_parse p = Ret (st, [], r) /\ bad_string st /\ terminated r) \/
  (exists t s rest, p = 34 :: t ++ 34 :: rest /\ lib_str t s /\ string_parse p = Ret (kOk, s, rest) /\ terminated rest).
Proof.
  intros HT HB. destruct (terminated_head p HT) as (c & r & ->).
  destruct (Z.eqb_spec c 34) as [->|Hc].
  - right. assert (HTr : terminated r) by (eapply terminated_tail; [|exact HT]; lia).
    inversion HB; subst.
    destruct (string_sound (length r) r 0 0 HTr) as [(st & Es & Hst)|(t & s & rest & -> & Ht)]; auto.
    + left. exists st, r. split; [reflexivity|]. split; [|auto].
      unfold string_parse. rewrite rd0. cbn [bind]. change (negb (34 =? 34)) with false. cbv iota zeta. cbn [skipn].
      rewrite Es. reflexivity.
    + right. exists t, s, rest. split; [reflexivity|]. split; [auto|]. split; [now apply string_parse_complete|].
      apply terminated_suffix in HTr; [|discriminate]. eapply terminated_tail; [|exact HTr]; lia.
  - left. split.
    + unfold string_parse. rewrite rd0. cbn [bind]. destruct (Z.eqb_spec c 34); [congruence|reflexivity].
    + intros r' E. congruence.
Qed.

(** A string token has one reading. *)
Lemma lib_str_unique t s rest t' s' rest' : lib_str t s -> lib_str t' s' ->
  t ++ 34 :: rest = t' ++ 34 :: rest' -> t = t' /\ s = s' /\ rest = rest'.
Proof.
  intros H H' E. pose proof (string_parse_complete t s rest H) as P.
  pose proof (string_parse_complete t' s' rest' H') as P'. rewrite E in P. rewrite P in P'.
  injection P' as -> ->. split; [|auto].
  apply (app_inv_tail (34 :: rest')). exact E.
Qed.

(** ** Number tokens *)

Lemma decimal_nonempty t n m e : decimal t n m e -> exists c, In c t /\ digit c.
Proof.
  intros H. destruct H as [sg neg ip fr fp ex x Hsg Hip Hfr Hne Hex].
  destruct ip as [|c ip].
  - destruct Hfr as [|ds Hds]; [simpl in Hne; congruence|].
    destruct ds as [|c ds]; [simpl in Hne; congruence|].
    inversion Hds; subst. exists c. split; [|auto]. rewrite in_app_iff. right. simpl. auto.
  - inversion Hip; subst. exists c. split; [|auto]. rewrite in_app_iff. right. simpl. auto.
Qed.

Lemma float_not_ws c : float_char c -> ~ wsc c.
Proof. unfold float_char, wsc, digit. lia. Qed.

(** What strtod does on a run is determined by the specification. *)
Lemma strtod_complete run pre suf n m e : run = pre ++ suf -> decimal pre n m e ->
  (forall pre' suf' n' m' e', run = pre' ++ suf' -> decimal pre' n' m' e' -> (length pre' <= length pre)%nat) ->
  strtod run = Some (dec_to_double n m e, suf).
Proof.
  intros E Hd Hmax. destruct (strtod run) as [[v rest]|] eqn:Es.
  - apply strtod_sound in Es. destruct Es as (pre1 & n1 & m1 & e1 & E1 & Hd1 & -> & Hmax1).
    assert (HL : length pre = length pre1).
    { pose proof (Hmax _ _ _ _ _ E1 Hd1). pose proof (Hmax1 _ _ _ _ _ E Hd). lia. }
    assert (HE : pre = pre1 /\ suf = rest).
    { rewrite E1 in E. clear - HL E. revert pre HL E. induction pre1 as [|c q IH]; intros pre HL E.
      - destruct pre; [auto|discriminate].
      - destruct pre as [|c' pre]; [discriminate|]. simpl in E. injection E as -> E. simpl in HL.
        destruct (IH pre) as [-> ->]; auto. }
    destruct HE as [<- <-]. destruct (decimal_unique _ _ _ _ _ _ _ Hd Hd1) as (-> & -> & ->). reflexivity.
  - exfalso. eapply strtod_none; eauto.
Qed.

(** The leading zero rule. *)
Lemma double_literal_ok run rest n m e pre suf : Forall float_char run -> nonfloat_head rest ->
  (forall c r, run = 48 :: c :: r -> c = 46) ->
  run = pre ++ suf -> decimal pre n m e ->
  (forall pre' suf' n' m' e', run = pre' ++ suf' -> decimal pre' n' m' e' -> (length pre' <= length pre)%nat) ->
  read_double_literal (run ++ rest) = Ret (kOk, length run, dec_to_double n m e).
Proof.
  intros Hrun Hrest Hz E Hd Hmax. unfold read_double_literal.
  rewrite (float_len_app run rest Hrun Hrest). cbn [bind].
  destruct run as [|c run].
  { destruct (decimal_nonempty _ _ _ _ Hd) as (c & Hc & _). destruct pre; [destruct Hc|discriminate]. }
  simpl Nat.eqb. cbv iota. rewrite <- app_comm_cons. rewrite rd0. cbn [bind].
  assert (HL : (if (c =? 48) && (1 <? Z.of_nat (length (c :: run)))
                then let! c1 := rd (c :: run ++ rest) 1 in Ret (negb (c1 =? 46)) else Ret false) = Ret false).
  { destruct (Z.eqb_spec c 48) as [->|]; [|reflexivity].
    destruct run as [|c1 run]; [reflexivity|].
    assert ((1 <? Z.of_nat (length (48 :: c1 :: run))) = true) as -> by (simpl length; lia).
    simpl. rewrite (Hz c1 run eq_refl). reflexivity. }
  rewrite HL. cbn [bind].
  change (c :: run ++ rest) with ((c :: run) ++ rest). rewrite rds_app. cbn [bind].
  rewrite (strtod_complete _ _ _ _ _ _ E Hd Hmax). reflexivity.
Qed.

Lemma number_parse_complete t d w rest : lib_num t d -> ws w -> nonws_head rest -> nonfloat_head (w ++ rest) ->
  number_parse (t ++ w ++ rest) = Ret (kOk, d, rest).
Proof.
  intros H Hw Hrest Hf. destruct H as [sg neg w1 run pre suf n m e d Hsg Hw1 Hsw Hrun Hnosign Hz E Hd Hmax Hr].
  assert (Hhead : exists c r, run = c :: r /\ float_char c).
  { destruct run as [|c r].
    - exfalso. destruct (decimal_nonempty _ _ _ _ Hd) as (c & Hc & _). destruct pre; [destruct Hc|discriminate].
    - inversion Hrun; subst. eauto. }
  destruct Hhead as (c & r & Ec & Hc).
  assert (Hsign : parse_sign ((sg ++ w1 ++ run) ++ w ++ rest) = Ret (neg, run ++ w ++ rest)).
  { assert (Hskip : skip_ws (w1 ++ run ++ w ++ rest) = Ret (run ++ w ++ rest)).
    { apply skip_ws_app; auto. rewrite Ec. simpl. do 2 eexists. split; [reflexivity|]. now apply float_not_ws. }
    unfold parse_sign. destruct Hsg.
    - rewrite Hsw by reflexivity. simpl. destruct (Hnosign eq_refl c r Ec) as [N1 N2]. rewrite Ec. cbn [rd nth_error app bind].
      destruct (Z.eqb_spec c 45); [congruence|]. destruct (Z.eqb_spec c 43); [congruence|]. reflexivity.
    - simpl. rewrite <- app_assoc. rewrite Hskip. reflexivity.
    - simpl. rewrite <- app_assoc. rewrite Hskip. reflexivity. }
  unfold number_parse. rewrite Hsign. cbn [bind].
  rewrite (double_literal_ok run (w ++ rest) n m e pre suf) by auto. cbn [bind].
  change (negb (status_eqb kOk kOk)) with false. cbv iota.
  rewrite skipn_length_app. rewrite skip_ws_app by auto. cbn [bind].
  rewrite dec_to_double_xor. apply rounds_dec in Hr; [now subst|]. eapply decimal_nonneg; eauto.
Qed.

Lemma parse_sign_spec p : terminated p ->
  exists sg neg w p1, parse_sign p = Ret (neg, p1) /\ p = sg ++ w ++ p1 /\ sign_text sg neg /\ ws w /\
    (sg = [] -> w = []) /\ (sg = [] -> forall c r, p1 = c :: r -> c <> 43 /\ c <> 45) /\ terminated p1 /\
    (sg <> [] -> nonws_head p1).
Proof.
  intros HT. destruct (terminated_head p HT) as (c & r & ->). unfold parse_sign. rewrite rd0. cbn [bind].
  destruct (Z.eqb_spec c 45) as [->|H45].
  - apply terminated_tail in HT; [|lia]. cbn [skipn].
    destruct (skip_ws_spec r HT) as (w & p' & -> & -> & Hw & Hn & Ht). cbn [bind].
    exists [45], true, w, p'. repeat split; auto; try constructor; try discriminate.
  - destruct (Z.eqb_spec c 43) as [->|H43].
    + apply terminated_tail in HT; [|lia]. cbn [skipn].
      destruct (skip_ws_spec r HT) as (w & p' & -> & -> & Hw & Hn & Ht). cbn [bind].
      exists [43], false, w, p'. repeat split; auto; try constructor; try discriminate.
    + exists [], false, [], (c :: r). repeat split; auto; try constructor; try congruence.
Qed.

Definition bad_number (st : status) : Prop := st = kFloatInvalid \/ st = kNumbersCannotHaveLeadingZeros.

Lemma read_double_spec p : terminated p ->
  (exists st n, read_double_literal p = Ret (st, n, S754_nan) /\ bad_number st) \/
  (exists run rest pre suf n m e, p = run ++ rest /\ Forall float_char run /\ nonfloat_head rest /\ terminated rest /\
     (forall c r, run = 48 :: c :: r -> c = 46) /\ run = pre ++ suf /\ decimal pre n m e /\
     (forall pre' suf' n' m' e', run = pre' ++ suf' -> decimal pre' n' m' e' -> (length pre' <= length pre)%nat) /\
     read_double_literal p = Ret (kOk, length run, dec_to_double n m e)).
Proof.
  intros HT. destruct (float_split p HT) as (run & rest & -> & Hrun & Hrest & Htr).
  unfold read_double_literal. rewrite (float_len_app run rest Hrun Hrest). cbn [bind].
  destruct run as [|c run].
  { left. do 2 eexists. split; [reflexivity|left; auto]. }
  simpl Nat.eqb. cbv iota. rewrite <- app_comm_cons. rewrite rd0. cbn [bind].
  assert (HL : exists b, (if (c =? 48) && (1 <? Z.of_nat (length (c :: run)))
                then let! c1 := rd (c :: run ++ rest) 1 in Ret (negb (c1 =? 46)) else Ret false) = Ret b /\
                (b = false -> forall c1 r, c :: run = 48 :: c1 :: r -> c1 = 46)).
  { destruct run as [|c1 run].
    - exists false. split; [|discriminate]. destruct (c =? 48); reflexivity.
    - destruct (Z.eqb_spec c 48) as [->|Hc].
      + assert ((1 <? Z.of_nat (length (48 :: c1 :: run))) = true) as -> by (simpl length; lia).
        simpl. exists (negb (c1 =? 46)). split; [reflexivity|]. intros Hb c1' r E. injection E as <- <-.
        destruct (Z.eqb_spec c1 46); [auto|discriminate].
      + exists false. split; [reflexivity|]. intros _ c1' r E. congruence. }
  destruct HL as (b & -> & Hb). cbn [bind].
  destruct b.
  { left. do 2 eexists. split; [reflexivity|right; auto]. }
  change (c :: run ++ rest) with ((c :: run) ++ rest). rewrite rds_app. cbn [bind].
  destruct (strtod (c :: run)) as [[v r]|] eqn:Es.
  - apply strtod_sound in Es. destruct Es as (pre & n & m & e & E & Hd & -> & Hmax).
    right. exists (c :: run), rest, pre, r, n, m, e. repeat split; auto; apply (Hb eq_refl).
  - left. do 2 eexists. split; [reflexivity|left; auto].
Qed.

Lemma number_parse_spec p : terminated p ->
  (exists st d p1, number_parse p = Ret (st, d, p1) /\ bad_number st /\ terminated p1 /\ (exists u, p = u ++ p1)) \/
  (exists t d w rest, p = t ++ w ++ rest /\ lib_num t d /\ ws w /\ nonws_head rest /\ terminated rest /\
     nonfloat_head (w ++ rest) /\ number_parse p = Ret (kOk, d, rest)).
Proof.
  intros HT. destruct (parse_sign_spec p HT) as (sg & neg & w1 & p1 & Es & -> & Hsg & Hw1 & Hsw & Hns & Ht1 & Hnw).
  unfold number_parse. rewrite Es. cbn [bind].
  destruct (read_double_spec p1 Ht1) as [(st & n & Er & Hst)|(run & rest & pre & suf & n & m & e & -> & Hrun & Hrest & Htr & Hz & E & Hd & Hmax & Er)].
  - left. rewrite Er. cbn [bind]. exists st, S754_nan, p1.
    split; [|split; [auto|split; [auto|exists (sg ++ w1); now rewrite <- app_assoc]]].
    destruct Hst as [->| ->]; reflexivity.
  - right. rewrite Er. cbn [bind]. change (negb (status_eqb kOk kOk)) with false. cbv iota.
    rewrite skipn_length_app.
    destruct (skip_ws_spec rest Htr) as (w & p' & -> & -> & Hw & Hn & Ht). cbn [bind].
    exists (sg ++ w1 ++ run), (dec_to_double (xorb neg n) m e), w, p'.
    split; [now rewrite <- !app_assoc|]. split.
    { econstructor; eauto.
      - intros Hs c r Ec. destruct run as [|x run]; [discriminate|]. injection Ec as <- <-.
        apply (Hns Hs x (run ++ w ++ p')). reflexivity.
      - apply dec_to_double_ok. eapply decimal_nonneg; eauto. }
    rewrite dec_to_double_xor. auto 10.
Qed.

Lemma number_parse_nonfloat c r : ~ float_char c -> number_parse (c :: r) = Ret (kFloatInvalid, S754_nan, c :: r).
Proof.
  intros H. unfold number_parse, parse_sign. rewrite rd0. cbn [bind].
  destruct (Z.eqb_spec c 45); [exfalso; apply H; unfold float_char; lia|].
  destruct (Z.eqb_spec c 43); [exfalso; apply H; unfold float_char; lia|]. cbn [bind].
  unfold read_double_literal. cbn [compute_float_literal_length].
  destruct (is_float_char_spec c); [tauto|]. rewrite andb_false_r. reflexivity.
Qed.

Lemma lib_num_head t d : lib_num t d -> exists c r, t = c :: r /\ float_char c.
Proof.
  intros H. destruct H as [sg neg w run pre suf n m e d Hsg Hw Hsw Hrun Hnosign Hz E Hd Hmax Hr].
  destruct Hsg.
  - rewrite Hsw by reflexivity. destruct run as [|c r].
    + exfalso. destruct (decimal_nonempty _ _ _ _ Hd) as (c & Hc & _). destruct pre; [destruct Hc|discriminate].
    + inversion Hrun; subst. simpl. eauto.
  - exists 43, (w ++ run). split; [reflexivity|unfold float_char; lia].
  - exists 45, (w ++ run). split; [reflexivity|unfold float_char; lia].
Qed.

(** ** Literals *)

Lemma looking_at_complete s pre rest : looking_at s (length pre) (pre ++ s ++ rest) = Ret true.
Proof.
  revert pre. induction s as [|x s IH]; intros pre; [reflexivity|]. cbn [looking_at]. unfold rd.
  rewrite nth_error_app2, Nat.sub_diag by lia. simpl. rewrite Z.eqb_refl.
  specialize (IH (pre ++ [x])). rewrite app_length in IH. simpl in IH. rewrite Nat.add_1_r, <- app_assoc in IH. exact IH.
Qed.

Lemma looking_at_spec s : nul_free s -> forall pre p, terminated p ->
  exists b, looking_at s (length pre) (pre ++ p) = Ret b /\
    (b = true -> exists r, p = s ++ r /\ terminated r) /\ (b = false -> forall r, p <> s ++ r).
Proof.
  induction 1 as [|x s Hx Hs IH]; intros pre p HT; cbn [looking_at].
  - exists true. split; [reflexivity|]. split; [exists p; auto|discriminate].
  - destruct (terminated_head p HT) as (c & r & ->). unfold rd.
    rewrite nth_error_app2, Nat.sub_diag by lia. simpl.
    destruct (Z.eqb_spec c x) as [->|Hc].
    + assert (HTr : terminated r) by (eapply terminated_tail; eauto).
      destruct (IH (pre ++ [x]) r HTr) as (b & E & H1 & H2).
      rewrite app_length in E. simpl in E. rewrite Nat.add_1_r, <- app_assoc in E.
      exists b. split; [exact E|]. split.
      * intros Hb. destruct (H1 Hb) as (q & -> & Hq). eauto.
      * intros Hb q Eq. injection Eq as Eq. eapply H2; eauto.
    + exists false. split; [reflexivity|]. split; [discriminate|]. intros _ q Eq. congruence.
Qed.

Lemma bool_parse_spec p : terminated p ->
  bool_parse p = Ret (kExpectedTrueOrFalse, true, p) \/
  (exists r, p = [116; 114; 117; 101] ++ r /\ terminated r /\ bool_parse p = Ret (kOk, true, r)) \/
  (exists r, p = [102; 97; 108; 115; 101] ++ r /\ terminated r /\ bool_parse p = Ret (kOk, false, r)).
Proof.
  intros HT. unfold bool_parse.
  destruct (looking_at_spec [116; 114; 117; 101] ltac:(repeat constructor; discriminate) [] p HT) as (b & E & H1 & _).
  simpl app in E. simpl length in E. rewrite E. cbn [bind]. destruct b.
  - destruct (H1 eq_refl) as (r & -> & Hr). right. left. exists r. auto.
  - destruct (looking_at_spec [102; 97; 108; 115; 101] ltac:(repeat constructor; discriminate) [] p HT) as (b & E' & H1' & _).
    simpl app in E'. simpl length in E'. rewrite E'. cbn [bind]. destruct b; [|auto].
    destruct (H1' eq_refl) as (r & -> & Hr). right. right. exists r. auto.
Qed.

Lemma null_parse_spec p : terminated p ->
  null_parse p = Ret (kExpectedNull, p) \/
  (exists r, p = [110; 117; 108; 108] ++ r /\ terminated r /\ null_parse p = Ret (kOk, r)).
Proof.
  intros HT. unfold null_parse.
  destruct (looking_at_spec [110; 117; 108; 108] ltac:(repeat constructor; discriminate) [] p HT) as (b & E & H1 & _).
  simpl app in E. simpl length in E. rewrite E. cbn [bind]. destruct b; [|auto].
  destruct (H1 eq_refl) as (r & -> & Hr). right. exists r. auto.
Qed.
