(** * Proofs about the size of what Write writes. *)

From Verif Require Import Base TextModel NumModel MapModel ParserModel WriterModel SpecUtf8 SpecNum SpecMap SpecGrammar
  SpecMeaning SpecRfc SpecWrite SpecBuild SpecSize TextProofs MapProofs LexProofs ParserProofs RootProofs FormatProofs WriterProofs.

#[local] Arguments Nat.max : simpl never.

(** ** Texts of the examples *)

Lemma twice_val d : lib_val (twice_text d) (twice d).
Proof.
  induction d as [|d IH]; [constructor|]. cbn [twice twice_text].
  assert (Ha : lib_str [97] [97]).
  { change [97] with (utf8 97 ++ []). apply sb_raw; [|constructor]. unfold lib_raw, code_point. lia. }
  pose proof (gm_cons lib_str lib_num [] [97] [97] [] [] (twice_text d) [] (twice d) _ _ (Forall_nil _) Ha (Forall_nil _) (Forall_nil _) IH (Forall_nil _)
    (gm_one lib_str lib_num [] [97] [97] [] [] [110; 117; 108; 108] [] JNull (Forall_nil _) Ha (Forall_nil _) (Forall_nil _) (g_null _ _) (Forall_nil _))) as H.
  apply g_obj in H. cbn [app] in H. unfold lib_val.
  replace ([123; 34; 97; 34; 58] ++ twice_text d ++ [44; 34; 97; 34; 58; 110; 117; 108; 108; 125])
    with (123 :: (34 :: 97 :: 34 :: 58 :: twice_text d ++ 44 :: 34 :: 97 :: 34 :: 58 :: [110; 117; 108; 108]) ++ [125]); [exact H|].
  cbn [app]. rewrite <- app_assoc. reflexivity.
Qed.

Lemma twice_length d : length (twice_text d) = (15 * d + 4)%nat.
Proof. induction d as [|d IH]; [reflexivity|]. cbn [twice_text]. rewrite !app_length, IH. cbn [length]. lia. Qed.

Lemma twice_normal d : normal (twice (S d)) = JObj [([97], normal (twice d)); ([97], normal (twice d))].
Proof. reflexivity. Qed.

Lemma twice_size num unit d : forall ind, (2 ^ d <= length (indented num unit ind (normal (twice d))))%nat.
Proof.
  induction d as [|d IH]; intros ind; [cbn; lia|]. rewrite twice_normal. cbn [indented map fst snd lines].
  specialize (IH (ind ++ unit)). cbn [Nat.pow]. repeat (rewrite ?app_length; cbn [app length]). lia.
Qed.

Lemma nest_val d : lib_val (nest_text d) (nest d).
Proof.
  induction d as [|d IH]; [exact (g_arr0 _ _ [] (Forall_nil _))|]. cbn [nest nest_text].
  pose proof (g_arr lib_str lib_num _ _ (ge_one lib_str lib_num [] (nest_text d) [] (nest d) (Forall_nil _) IH (Forall_nil _))) as H.
  cbn [app] in H. rewrite app_nil_r in H. exact H.
Qed.

Lemma nest_length d : length (nest_text d) = (2 * d + 2)%nat.
Proof. induction d as [|d IH]; [reflexivity|]. cbn [nest_text length]. rewrite app_length, IH. cbn [length]. lia. Qed.

Lemma nest_normal d : normal (nest d) = nest d.
Proof. induction d as [|d IH]; [reflexivity|]. cbn [nest normal map]. now rewrite IH. Qed.

Lemma nest_size num unit d : forall ind,
  length (indented num unit ind (nest d)) = ((2 * d + 1) * length ind + 4 * d + 3 + length unit * (d * (d + 1)))%nat.
Proof.
  induction d as [|d IH]; intros ind.
  - cbn [nest indented map lines app length]. rewrite app_length. cbn [length]. lia.
  - cbn [nest indented map lines]. repeat (rewrite ?app_length, ?IH; cbn [app length]). lia.
Qed.

(** ** Upper bound *)

Lemma distinct_normal j : distinct j -> normal j = j.
Proof.
  induction j as [s|d|b| |l IH|ms IH] using jv_induct; intros H; cbn [normal]; try reflexivity; inversion H; subst; f_equal.
  - rewrite <- (map_id l) at 2. apply map_ext_in. intros x Hx. rewrite Forall_forall in *. auto.
  - assert (E : map (fun m => (fst m, normal (snd m))) ms = ms).
    { rewrite <- (map_id ms) at 2. apply map_ext_in. intros [k x] Hx. cbn [fst snd]. f_equal. rewrite Forall_forall in *. apply (IH _ Hx). apply (H2 _ Hx). }
    rewrite E. unfold first_values. transitivity (map (fun x => x) ms); [|apply map_id]. apply map_ext_in. intros [k x] Hx. cbn [fst snd]. f_equal.
    clear - H1 Hx. induction ms as [|[k' y] ms IHm]; [destruct Hx|]. cbn [map fst assoc] in *. inversion H1; subst.
    destruct (key_eqb_spec k k') as [->|N].
    + destruct Hx as [Hx|Hx]; [congruence|]. exfalso. apply H2. apply (in_map fst) in Hx. exact Hx.
    + destruct Hx as [Hx|Hx]; [congruence|]. now apply IHm.
Qed.

Lemma lib_str_shorter t s : lib_str t s -> (length s <= length t)%nat.
Proof.
  intros H. induction H as [|cp t s Hr _ IH|c x t s He _ IH|h cp t s Hh Hc _ IH].
  - lia.
  - rewrite !app_length. lia.
  - cbn [length]. lia.
  - apply hex4_range in Hh. destruct Hh as (R & L & _). cbn [length]. rewrite !app_length, L.
    assert (length (utf8 cp) <= 4)%nat by (unfold utf8; repeat match goal with |- context [if ?b then _ else _] => destruct b end; cbn [length]; lia). lia.
Qed.

Lemma number_length d : valid_double d -> (length (snprintf17g 32 d) <= 24)%nat.
Proof.
  intros Hv. destruct d as [s|s| |s m e].
  - destruct s; cbn; lia.
  - destruct s; cbn; lia.
  - cbn; lia.
  - destruct (fmt17g_ok (S754_finite s m e) Hv I) as [_ H]. unfold snprintf17g. rewrite firstn_length. lia.
Qed.

Lemma lib_num_valid t d : lib_num t d -> valid_double d.
Proof.
  intros H. assert (Hd : lib_doc t (JNum d)).
  { pose proof (gdoc_intro lib_str lib_num [] t [] (JNum d) (Forall_nil _) (g_num _ _ _ _ H) (Forall_nil _)) as X. cbn [app] in X. now rewrite app_nil_r in X. }
  pose proof (lib_doc_tokens _ _ Hd) as T. now inversion T.
Qed.

Lemma lib_num_nonempty t d : lib_num t d -> (1 <= length t)%nat.
Proof. intros H. destruct (lib_num_head _ _ H) as (c & r & -> & _). cbn [length]. lia. Qed.

Section Bound.
Variable unit : list Z.
Notation pretty := (indented (snprintf17g 32) unit).
Notation u := (length unit).

(** One line for each element. *)
Lemma lines_length ls : (length (lines ls) <= list_sum (map (fun x => length x + 2) ls))%nat.
Proof.
  induction ls as [|x ls IH]; [cbn; lia|]. destruct ls as [|y ls].
  - cbn [lines map list_sum fold_right]. rewrite app_length. cbn [length]. lia.
  - change (lines (x :: y :: ls)) with (x ++ [44; 10] ++ lines (y :: ls)).
    change (list_sum (map (fun x => (length x + 2)%nat) (x :: y :: ls))) with ((length x + 2) + list_sum (map (fun x => (length x + 2)%nat) (y :: ls)))%nat.
    rewrite !app_length. cbn [length]. lia.
Qed.

Definition entry (ind : list Z) (m : list Z * jv) : list Z := ind ++ 34 :: fst m ++ [34; 32; 58; 32] ++ pretty ind (snd m).
Lemma entry_length ind m : length (entry ind m) = (length ind + length (fst m) + 5 + length (pretty ind (snd m)))%nat.
Proof. unfold entry. repeat (rewrite ?app_length; cbn [length]). lia. Qed.

Definition bval (t : list Z) (j : jv) : Prop := forall ind K, (length ind + u * nesting j <= K)%nat ->
  (length (pretty ind j) + K + 2 <= (K + 26) * length t)%nat.
Definition belems (t : list Z) (l : list jv) : Prop := forall ind K, (length ind + u * deepest l <= K)%nat ->
  (list_sum (map (fun x => length (ind ++ pretty ind x) + 2) l) <= (K + 26) * length t)%nat.
Definition bmembers (t : list Z) (ms : list (list Z * jv)) : Prop := forall ind K, (length ind + u * deepest_member ms <= K)%nat ->
  (list_sum (map (fun m => length (entry ind m) + 2) ms) <= (K + 26) * length t)%nat.

Lemma size_bound :
  (forall t j, lib_val t j -> bval t j) /\
  (forall t l, gelems lib_str lib_num t l -> belems t l) /\
  (forall t l, gmembers lib_str lib_num t l -> bmembers t l).
Proof.
  assert (M : forall K a b : nat, ((K + 26) * (a + b) = (K + 26) * a + (K + 26) * b)%nat) by (intros; apply Nat.mul_add_distr_l).
  assert (M1 : forall K : nat, ((K + 26) * 1 = K + 26)%nat) by (intros; lia).
  assert (G : forall K a : nat, (a <= (K + 26) * a)%nat) by (intros; nia).
  unfold lib_val. apply (grammar_mind lib_str lib_num bval belems bmembers).
  - intros t s Hs ind K HK. apply lib_str_shorter in Hs. cbn [indented length]. rewrite !app_length. cbn [length].
    replace (S (length t + 1)) with (length t + 1 + 1)%nat by lia. rewrite !M, !M1. specialize (G K (length t)). lia.
  - intros t d Hd ind K HK. cbn [indented]. pose proof (number_length d (lib_num_valid _ _ Hd)). pose proof (lib_num_nonempty _ _ Hd).
    assert ((K + 26) * 1 <= (K + 26) * length t)%nat by (apply Nat.mul_le_mono_l; auto). lia.
  - intros ind K HK. cbn [indented length]. lia.
  - intros ind K HK. cbn [indented length]. lia.
  - intros ind K HK. cbn [indented length]. lia.
  - intros w Hw ind K HK. cbn [indented map lines length app]. rewrite !app_length. cbn [length].
    replace (S (length w + 1)) with (length w + 1 + 1)%nat by lia. rewrite !M, !M1. lia.
  - intros t l _ IH ind K HK. rewrite nesting_arr in HK. cbn [indented length].
    assert (HK' : (length (ind ++ unit) + u * deepest l <= K)%nat) by (rewrite app_length; lia).
    specialize (IH (ind ++ unit) K HK'). rewrite <- (map_map (fun x => (ind ++ unit) ++ pretty (ind ++ unit) x) (fun y => (length y + 2)%nat)) in IH.
    pose proof (lines_length (map (fun x => (ind ++ unit) ++ pretty (ind ++ unit) x) l)) as L.
    rewrite !app_length. cbn [length]. replace (S (length t + 1)) with (length t + 1 + 1)%nat by lia. rewrite !M, !M1. lia.
  - intros w Hw ind K HK. cbn [indented map lines length app]. rewrite !app_length. cbn [length].
    replace (S (length w + 1)) with (length w + 1 + 1)%nat by lia. rewrite !M, !M1. lia.
  - intros t l _ IH ind K HK. rewrite nesting_obj in HK.
    change (pretty ind (JObj l)) with ([123; 10] ++ lines (map (entry (ind ++ unit)) l) ++ ind ++ [125]). cbn [length].
    assert (HK' : (length (ind ++ unit) + u * deepest_member l <= K)%nat) by (rewrite app_length; lia).
    specialize (IH (ind ++ unit) K HK').
    rewrite <- (map_map (entry (ind ++ unit)) (fun y => (length y + 2)%nat)) in IH.
    pose proof (lines_length (map (entry (ind ++ unit)) l)) as L.
    rewrite !app_length. cbn [length]. replace (S (length t + 1)) with (length t + 1 + 1)%nat by lia. rewrite !M, !M1. lia.
  - intros w1 t w2 v Hw1 _ IH Hw2 ind K HK. cbn [deepest] in HK. specialize (IH ind K ltac:(nia)).
    cbn [map list_sum fold_right]. rewrite !app_length, !M. lia.
  - intros w1 t w2 v t' l Hw1 _ IH Hw2 _ IHl ind K HK. cbn [deepest] in HK. specialize (IH ind K ltac:(nia)). specialize (IHl ind K ltac:(nia)).
    change (list_sum (map (fun x => (length (ind ++ pretty ind x) + 2)%nat) (v :: l))) with
      ((length (ind ++ pretty ind v) + 2) + list_sum (map (fun x => (length (ind ++ pretty ind x) + 2)%nat) l))%nat.
    rewrite !app_length. cbn [length]. replace (S (length t')) with (1 + length t')%nat by lia. rewrite !M, !M1. lia.
  - intros w1 n nm w2 w3 t w4 v Hw1 Hn Hw2 Hw3 _ IH Hw4 ind K HK. cbn [deepest_member] in HK. specialize (IH ind K ltac:(nia)).
    apply lib_str_shorter in Hn. cbn [map list_sum fold_right fst snd]. pose proof (G K (length n)).
    rewrite ?entry_length. cbn [fst snd]. repeat (rewrite ?app_length; cbn [length]).
    match goal with |- (_ <= _ * ?x)%nat => replace x with (length w1 + (1 + (length n + (1 + (length w2 + (1 + (length w3 + (length t + length w4))))))))%nat by lia end.
    rewrite !M, !M1. lia.
  - intros w1 n nm w2 w3 t w4 v t' l Hw1 Hn Hw2 Hw3 _ IH Hw4 _ IHl ind K HK. cbn [deepest_member] in HK.
    specialize (IH ind K ltac:(nia)). specialize (IHl ind K ltac:(nia)). apply lib_str_shorter in Hn. pose proof (G K (length n)).
    change (list_sum (map (fun m => (length (entry ind m) + 2)%nat) ((nm, v) :: l))) with
      ((length (entry ind (nm, v)) + 2) +
       list_sum (map (fun m => (length (entry ind m) + 2)%nat) l))%nat.
    rewrite ?entry_length. cbn [fst snd]. repeat (rewrite ?app_length; cbn [length]).
    match goal with |- (_ <= _ * ?x)%nat => replace x with (length w1 + (1 + (length n + (1 + (length w2 + (1 + (length w3 + (length t + (length w4 + (1 + length t'))))))))))%nat by lia end.
    rewrite !M, !M1. lia.
Qed.
End Bound.
