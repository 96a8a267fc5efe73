(** * Properties of maps with keys of the key classes: C96. *)

From Coq Require Import Permutation Sorted.
From Verif Require Import Base Str TextModel StringModel ToolsModel MapModel KeyModel SpecNum SpecText SpecMap SpecTools SpecKey.
From Verif Require Import MapProofs OrderProofs ToolsProofs NumberedProofs KeyProofs PropMap PropTools.

(** ** C96: maps with other keys *)

(** What a map is after insertions, in terms of the operators of the key class: a
    lookup finds the first element inserted with an equal key; an insertion succeeds
    exactly when no equal key was there; the iteration gives the elements inserted
    in increasing order; the tree is balanced. *)
Definition behaves (c : key_class) (good : ptr -> Prop) : Prop :=
  forall (A : Type) (l : list (ptr * A)), Forall (fun p => good (fst p)) l ->
  exists t, key_insert_all c Leaf l = Ret (t, is_first (key_equal c) [] l) /\
    (forall key, good key -> key_find c t key = Ret (first_equal (key_equal c) key l)) /\
    (exists es, iterate (size t) (map_first t) = Ret es /\ sorted (key_less c) es /\
       Permutation es (firsts (key_equal c) [] l)) /\
    (forall l k v b r, subtree (Node l k v b r) t -> b = tree_height r - tree_height l /\ -1 <= b <= 1).

(** Operators that fit together are enough, whatever the keys are. *)
Theorem C96_maps (c : key_class) (good : ptr -> Prop) : ordered (key_less c) (key_equal c) good -> behaves c good.
Proof.
  intros O A l G.
  destruct (key_insert_all_ok c good O l Leaf []) as (t & E & Av & Gt & Sr & P); trivial; try (constructor; fail).
  exists t. split; [exact E|]. split; [|split].
  - intros key Gk. rewrite (key_find_ok c good O t key Gk Gt Sr). f_equal.
    rewrite <- (fe_perm c good O _ _ key Gk Gt Sr P). apply (firsts_fe c good O); trivial.
  - exists (elements t). split; [apply iterate_elements; trivial|]. auto.
  - assert (EH : forall x : tree A, tree_height x = height x) by (induction x; simpl; congruence).
    intros l0 k v b r Hs. remember (Node l0 k v b r) as x. rewrite !EH. clear - Av Hs Heqx.
    induction Hs; subst; simpl in Av; try tauto; apply IHHs; tauto.
Qed.
Print Assumptions C96_maps.

(** The keys ConstCharKey and StringKey accept: texts. *)
Definition text_key (p : ptr) : Prop := exists s, holds p s /\ bytes s.

Lemma text_good p s : holds p s -> bytes s -> good_key s /\ exists r, p = s ++ 0 :: r.
Proof.
  intros (N & r & ->) B. split; [|eauto]. apply Forall_forall. intros x I.
  unfold nul_free in N. unfold bytes in B. rewrite Forall_forall in N, B. specialize (N x I). specialize (B x I). unfold is_byte in B. lia.
Qed.

Theorem C96_text_keys : ordered (key_less const_char_key) (key_equal const_char_key) text_key /\
  ordered (key_less string_key) (key_equal string_key) text_key.
Proof.
  assert (H : ordered compare_text_less_than compare_text text_key); [|split; exact H].
  assert (Eq : forall a b ra rb, good_key a -> good_key b -> compare_text (a ++ 0 :: ra) (b ++ 0 :: rb) = Ret true <-> a = b).
  { intros a b ra rb Ga Gb. rewrite compare_text_ok by trivial. destruct (key_eqb_spec a b); split; congruence. }
  assert (Lt : forall a b ra rb, good_key a -> good_key b -> compare_text_less_than (a ++ 0 :: ra) (b ++ 0 :: rb) = Ret true <-> lex_lt a b).
  { intros a b ra rb Ga Gb. rewrite less_than_ok by trivial. destruct (text_lt_bool a b Ga Gb); split; congruence. }
  unfold ordered. repeat apply conj.
  - intros p q (a & Pa & Ba) (b & Pb & Bb).
    destruct (text_good p a Pa Ba) as (Ga & ra & ->). destruct (text_good q b Pb Bb) as (Gb & rb & ->).
    rewrite !less_than_ok, compare_text_ok by trivial. do 3 eexists. do 3 (split; [reflexivity|]).
    destruct (text_lt_bool a b Ga Gb) as [L|L], (key_eqb_spec a b) as [E|E], (text_lt_bool b a Gb Ga) as [M|M]; auto; exfalso.
    all: try (subst b; destruct (lex_irrefl a); trivial; fail).
    all: try (destruct (lex_irrefl a); apply lex_trans with b; trivial; fail).
    destruct (lex_total a b) as [T|[T|T]]; tauto.
  - intros p q w (a & Pa & Ba) (b & Pb & Bb) (d & Pd & Bd).
    destruct (text_good p a Pa Ba) as (Ga & ra & ->). destruct (text_good q b Pb Bb) as (Gb & rb & ->). destruct (text_good w d Pd Bd) as (Gd & rd & ->).
    rewrite !Lt by trivial. apply lex_trans.
  - intros p (a & Pa & Ba). destruct (text_good p a Pa Ba) as (Ga & ra & ->). apply Eq; trivial.
  - intros p q (a & Pa & Ba) (b & Pb & Bb).
    destruct (text_good p a Pa Ba) as (Ga & ra & ->). destruct (text_good q b Pb Bb) as (Gb & rb & ->).
    rewrite !Eq by trivial. congruence.
  - intros p q w (a & Pa & Ba) (b & Pb & Bb) (d & Pd & Bd).
    destruct (text_good p a Pa Ba) as (Ga & ra & ->). destruct (text_good q b Pb Bb) as (Gb & rb & ->). destruct (text_good w d Pd Bd) as (Gd & rd & ->).
    rewrite !Eq by trivial. congruence.
Qed.
Print Assumptions C96_text_keys.

Theorem C96_text_maps : behaves const_char_key text_key /\ behaves string_key text_key.
Proof. destruct C96_text_keys. split; apply C96_maps; trivial. Qed.
Print Assumptions C96_text_maps.

(** FileNameKey: two keys that are different can be neither less nor greater, because
    numbers wrap at 2^32. The map does not take the second. *)
Theorem C96_merged_refuted : exists p q, text_key p /\ text_key q /\
  key_equal file_name_key p q = Ret false /\
  (let! (t, fs) := key_insert_all file_name_key Leaf [(p, 1); (q, 2)] in
   let! e := key_find file_name_key t q in Ret (fs, e)) = Ret ([true; false], Some 1).
Proof.
  exists (`"img4294967296" ++ [0]), (`"img8589934592" ++ [0]).
  assert (H : forall s, forallb (fun x => (0 <? x) && (x <? 128)) s = true -> text_key (s ++ [0])).
  { intros s H. rewrite forallb_forall in H. exists s. split; [split|].
    - apply Forall_forall. intros x I. apply H in I. lia.
    - exists []. trivial.
    - apply Forall_forall. intros x I. apply H in I. unfold is_byte. lia. }
  split; [apply H; reflexivity|]. split; [apply H; reflexivity|]. split; reflexivity.
Qed.
Print Assumptions C96_merged_refuted.

(** Each of "1b" and "01a" is less than the other. A map with three elements does not
    find the first of them any more, and takes the same key a second time. *)
Theorem C96_lost_refuted : exists p q r, text_key p /\ text_key q /\ text_key r /\
  (let! (t, fs) := key_insert_all file_name_key Leaf [(p, 1); (q, 2); (r, 3)] in
   let! e := key_find file_name_key t p in
   let! (t, f) := key_insert file_name_key t p 4 in
   let! es := iterate (size t) (map_first t) in
   Ret (fs, e, f, map snd es)) = Ret ([true; true; true], None, true, [3; 4; 2; 1]).
Proof.
  exists (`"1b" ++ [0]), (`"01a" ++ [0]), (`"0" ++ [0]).
  assert (H : forall s, forallb (fun x => (0 <? x) && (x <? 128)) s = true -> text_key (s ++ [0])).
  { intros s H. rewrite forallb_forall in H. exists s. split; [split|].
    - apply Forall_forall. intros x I. apply H in I. lia.
    - exists []. trivial.
    - apply Forall_forall. intros x I. apply H in I. unfold is_byte. lia. }
  split; [apply H; reflexivity|]. split; [apply H; reflexivity|]. split; [apply H; reflexivity|]. reflexivity.
Qed.
Print Assumptions C96_lost_refuted.

(** With names whose numbers have no superfluous zeros and are below 2^32, FileNameKey
    is as good as the others. Missing: all other names, for which it is false. *)
Definition plain_name (p : ptr) : Prop := exists s, holds p s /\ bytes s /\ plain_numbers s.

Theorem C96_file_keys_partial : ordered (key_less file_name_key) (key_equal file_name_key) plain_name.
Proof.
  unfold ordered. simpl.
  assert (Eq : forall p q a b, holds p a -> holds q b -> bytes a -> bytes b ->
    exists r, compare_text_caseless p q = Ret r /\ (r = true <-> map upper a = map upper b)).
  { intros p q a b Pa Pb Ba Bb. destruct (C66_caseless p q a b Pa Pb Ba Bb) as ((r & E & H) & _). exists r. split; trivial.
    rewrite map_upper_lower in H by trivial. exact H. }
  assert (Lt : forall p q a b, holds p a -> holds q b -> bytes a -> bytes b -> plain_numbers a -> plain_numbers b ->
    exists r, numbered_less_than_caseless p q = Ret r /\ (r = true -> map upper a <> map upper b)).
  { intros p q a b Pa Pb Ba Bb Na Nb.
    destruct (plain_key fold_upper a Na) as (ka & Ka). destruct (plain_key fold_upper b Nb) as (kb & Kb).
    destruct (C67_by_key_partial p q a b Pa Pb Ba Bb Na Nb) as (_ & H). destruct (H ka kb Ka Kb) as (r & E & L).
    exists r. split; trivial. intros -> M. apply (key_irrefl ka).
    assert (Kb' : sort_key fold_upper b ka).
    { apply (key_inj_conv fold_upper upper_digit upper_other a b); trivial. rewrite !map_upper by trivial. trivial. }
    destruct (H ka ka Ka Kb') as (r & E' & L'). apply L'. congruence. }
  repeat apply conj.
  - intros p q (a & Pa & Ba & Na) (b & Pb & Bb & Nb).
    destruct (Lt p q a b) as (x & Ex & Hx); trivial. destruct (Lt q p b a) as (z & Ez & Hz); trivial.
    destruct (Eq p q a b) as (y & Ey & Hy); trivial. exists x, y, z. do 3 (split; [trivial|]).
    destruct (C67_order_partial p q p a b a) as (_ & _ & _ & Irr & Tr & Tot); trivial.
    rewrite Ex, Ez in *. destruct x, y, z; auto; exfalso.
    + apply Hx; trivial. apply Hy. trivial.
    + apply Hx; trivial. apply Hy. trivial.
    + specialize (Tr eq_refl eq_refl). congruence.
    + apply Hz; trivial. symmetry. apply Hy. trivial.
    + destruct Tot as [T|[T|T]]; try discriminate. apply Hy in T. discriminate.
  - intros p q w (a & Pa & Ba & Na) (b & Pb & Bb & Nb) (d & Pd & Bd & Nd).
    destruct (C67_order_partial p q w a b d) as (_ & _ & _ & _ & Tr & _); trivial.
  - intros p (a & Pa & Ba & Na). destruct (Eq p p a a) as (y & -> & H); trivial. f_equal. apply H. trivial.
  - intros p q (a & Pa & Ba & Na) (b & Pb & Bb & Nb).
    destruct (Eq p q a b) as (x & -> & Hx); trivial. destruct (Eq q p b a) as (y & -> & Hy); trivial.
    intros E. injection E as ->. f_equal. apply Hy. symmetry. apply Hx. trivial.
  - intros p q w (a & Pa & Ba & Na) (b & Pb & Bb & Nb) (d & Pd & Bd & Nd).
    destruct (Eq p q a b) as (x & -> & Hx); trivial. destruct (Eq q w b d) as (y & -> & Hy); trivial.
    destruct (Eq p w a d) as (z & -> & Hz); trivial.
    intros E1 E2. injection E1 as ->. injection E2 as ->. f_equal. apply Hz. rewrite (proj1 Hx), (proj1 Hy); trivial.
Qed.
Print Assumptions C96_file_keys_partial.

Theorem C96_file_maps_partial : behaves file_name_key plain_name.
Proof. apply C96_maps, C96_file_keys_partial. Qed.
Print Assumptions C96_file_maps_partial.

(** Three names, one of them twice in different case; the lookup ignores case and the
    iteration orders the numbers by their value. *)
Example C96_instance :
  (let! (t, fs) := key_insert_all file_name_key Leaf
     [(`"b" ++ [0], 1); (`"File10" ++ [0], 2); (`"file9" ++ [0], 3); (`"FILE10" ++ [0], 4)] in
   let! x := key_find file_name_key t (`"fILE10" ++ [0; 7]) in
   let! y := key_find file_name_key t (`"file1" ++ [0]) in
   let! es := iterate (size t) (map_first t) in
   Ret (fs, x, y, map snd es)) = Ret ([true; true; true; false], Some 2, None, [1; 3; 2]).
Proof. vm_compute. reflexivity. Qed.
