(** Proofs about IsMember32 and IsMemberCategorical: text, and the calls from Python. *)
From Verif Require Import Base Mem MemLemmas Par HashModel HashSpec HashProofs HashMember IsmModel IsmSpec IsmProofs.
Local Open Scope Z_scope.

(** ** Text *)
Section Text.
  Context (hash : list Z -> Z) (size : Z) (w1 w2 : nat) (a b : list (list Z)) (k : list Z -> list Z) (hk : list Z -> Z).
  Definition text_H (s : list Z) : Z := mask_hash size (hash (upto0 s)).
  Definition text_m1 := string_entry_match b (if (w1 =? w2)%nat then STRING_MATCH w1 else STRING_MATCH2 w2 w1).
  Context (Hsize : 0 < size) (Hk : forall s, hash (upto0 s) = hk (k s))
    (Hb : forall x y, In x b -> In y b -> exists c, STRING_MATCH w2 y x = Some c /\ (c = true <-> k y = k x))
    (Ha : forall x y, In x a -> In y b -> exists c, (if (w1 =? w2)%nat then STRING_MATCH w1 else STRING_MATCH2 w2 w1) y x = Some c /\ (c = true <-> k y = k x)).

  Lemma text_table : exists (MI : list (option Z) -> Prop),
    okt (~ fewer_than size b) MI (make_location (fun i _ => i) (string_entry_match b (STRING_MATCH w2)) text_H (fun _ => true) (new_table size) 0 b) /\
    forall t, MI t -> forall x bad, In x a ->
      okt (~ fewer_than size b) (member_row (fun x y => k x = k y) bad b x) (get_location text_m1 (fun l => l) text_H (fun _ => true) bad t x) /\
      okt (~ fewer_than size b) (member_cat_row (fun x y => k x = k y) b x) (get_location_cat text_m1 (fun l => l) text_H (fun _ => true) t x).
  Proof using Hsize Hk Hb Ha.
    set (key := fun p : Z => option_map k (zrd b p)).
    set (hk' := fun o => match o with Some u => mask_hash size (hk u) | None => 0 end).
    set (k' := fun s : list Z => Some (k s)).
    assert (HH2 : forall j y, used (fun _ : list Z => true) b j y -> text_H y = hk' (k' y) /\ 0 <= text_H y < size).
    { intros j y (Hj & _). split; [unfold text_H, hk', k'; now rewrite Hk|]. apply mask_range. auto. }
    assert (Hm2 : forall i x j y, used (fun _ : list Z => true) b i x -> used (fun _ : list Z => true) b j y -> exists c,
              string_entry_match b (STRING_MATCH w2) x (Z.of_nat j) = Some c /\ (c = true <-> k' y = k' x)).
    { intros i x j y (Hx & _) (Hj & _). apply nth_error_In in Hx. unfold string_entry_match. rewrite zrd_some, Nat2Z.id, Hj by lia.
      apply nth_error_In in Hj. destruct (Hb x y Hx Hj) as (c & E & Hc). exists c. split; auto. rewrite Hc. unfold k'. split; congruence. }
    assert (Hm1 : forall x, In x a -> forall j y, used (fun _ : list Z => true) b j y -> exists c,
              text_m1 x (Z.of_nat j) = Some c /\ (c = true <-> k' y = k' x)).
    { intros x Hx j y (Hj & _). unfold text_m1, string_entry_match. rewrite zrd_some, Nat2Z.id, Hj by lia.
      apply nth_error_In in Hj. destruct (Ha x y Hx Hj) as (c & E & Hc). exists c. split; auto. rewrite Hc. unfold k'. split; congruence. }
    assert (Hkey : forall j y, used (fun _ : list Z => true) b j y -> key (Z.of_nat j) = k' y).
    { intros j y (Hj & _). unfold key. rewrite zrd_some, Nat2Z.id, Hj by lia. auto. }
    assert (TT : too_small (fun _ : list Z => true) k' b size -> ~ fewer_than size b).
    { intros T C. apply T. apply fewer_map. eapply fewer_incl; [apply incl_filter|auto]. }
    exists (fun t => minv (fun (i : Z) (_ : list Z) => i) (fun _ => true) key hk' k' b size t (length b)). split.
    - eapply okt_weaken; [apply (make_all (fun i _ => i) (string_entry_match b (STRING_MATCH w2)) text_H (fun _ => true) key hk' k' b size)|exact TT|].
      all: auto; try lia.
    - intros t Mt x bad Hx.
      destruct (lookup_ok (fun (i : Z) (_ : list Z) => i) (string_entry_match b (STRING_MATCH w2)) text_H (fun _ => true) key hk' k' b size) with
        (m1 := text_m1) (loc := fun l : Z => l) (H1 := text_H) (use1 := fun _ : list Z => true) (k1 := k') (bad := bad) (t := t) (x := x) as (A & B); auto; try lia.
      { intros _. split; [unfold text_H, hk', k'; now rewrite Hk|]. apply mask_range. auto. }
      split.
      + eapply okt_weaken; [exact A|exact TT|]. intros r. apply member_row_iff. intros y Hy. unfold eqk, k'. intuition congruence.
      + eapply okt_weaken; [exact B|exact TT|]. intros r. apply member_cat_row_iff. intros y Hy. unfold eqk, k'. intuition congruence.
  Qed.
End Text.

(** strings of one width by all their characters, padded strings of two widths up to the padding *)
Definition texts_ok (w1 w2 : nat) (a b : list (list Z)) : Prop :=
  (forall s, In s a -> length s = w1) /\ (forall s, In s b -> length s = w2) /\ (w1 <> w2 -> padded w1 a /\ padded w2 b).

Lemma text_lookups hash size w1 w2 a b : 0 < size -> texts_ok w1 w2 a b -> exists (MI : list (option Z) -> Prop),
    okt (~ fewer_than size b) MI (make_location (fun i _ => i) (string_entry_match b (STRING_MATCH w2)) (text_H hash size) (fun _ => true) (new_table size) 0 b) /\
    forall t, MI t -> forall x bad, In x a ->
      okt (~ fewer_than size b) (member_row same_text bad b x) (get_location (text_m1 w1 w2 b) (fun l => l) (text_H hash size) (fun _ => true) bad t x) /\
      okt (~ fewer_than size b) (member_cat_row same_text b x) (get_location_cat (text_m1 w1 w2 b) (fun l => l) (text_H hash size) (fun _ => true) t x).
Proof.
  intros Hs (La & Lb & P). destruct (Nat.eq_dec w1 w2) as [<-|N].
  - destruct (text_table hash size w1 w1 a b (fun s => s) (fun s => hash (upto0 s)) Hs) as (MI & M & G); auto.
    + intros x y Hx Hy. apply string_match_ok; auto.
    + intros x y Hx Hy. rewrite Nat.eqb_refl. apply string_match_ok; auto.
    + exists MI. split; auto. intros t Ht x bad Hx. destruct (G t Ht x bad Hx) as (A & B). split.
      * eapply okt_weaken; [exact A|auto|]. intros r. apply member_row_iff. intros y Hy. symmetry. apply same_text_eq. rewrite La, Lb; auto.
      * eapply okt_weaken; [exact B|auto|]. intros r. apply member_cat_row_iff. intros y Hy. symmetry. apply same_text_eq. rewrite La, Lb; auto.
  - destruct (P N) as (Pa & Pb).
    destruct (text_table hash size w1 w2 a b upto0 hash Hs) as (MI & M & G); auto.
    + intros x y Hx Hy. destruct (Pb x Hx), (Pb y Hy). apply string_match_pad; auto.
    + intros x y Hx Hy. destruct (Pa x Hx), (Pb y Hy). rewrite (proj2 (Nat.eqb_neq _ _) N). apply string_match2_pad; auto.
    + exists MI. split; auto. intros t Ht x bad Hx. destruct (G t Ht x bad Hx) as (A & B). split.
      * eapply okt_weaken; [exact A|auto|]. intros r. apply member_row_iff. intros y Hy. apply upto0_same; [exact (proj2 (Pa x Hx))|exact (proj2 (Pb y Hy))].
      * eapply okt_weaken; [exact B|auto|]. intros r. apply member_cat_row_iff. intros y Hy. apply upto0_same; [exact (proj2 (Pa x Hx))|exact (proj2 (Pb y Hy))].
Qed.

Lemma members_text hash mode hint bad w1 w2 a b : texts_ok w1 w2 a b -> room hint (Z.of_nat (length b)) ->
  exists rs, IsMemberString hash mode hint bad w1 w2 a b = Ret rs /\ member_spec same_text bad b a rs.
Proof.
  intros T R. destruct (room_entries mode false hint b R) as (En & Fw). pose proof (alloc_pos mode false _ En) as P.
  apply (okt_ret_inv (~ fewer_than (AllocMemory mode false (entries hint (Z.of_nat (length b)))) b)); [|exact (fun N => N Fw)].
  destruct (text_lookups hash _ w1 w2 a b P T) as (MI & M & G). unfold IsMemberString. eapply okt_bind; [exact M|].
  intros t Ht. apply all_ret_ok. intros x Hx. apply (G t Ht x bad Hx).
Qed.

Lemma in_threads_ret {B} thr (r : B) : in_threads thr (Ret r) = Ret r.
Proof. reflexivity. Qed.

Lemma categories_text m hash w mode hint w1 w2 a b : fair (m_ord m) -> texts_ok w1 w2 a b -> room hint (Z.of_nat (length b)) ->
  0 < w -> Z.of_nat (length b) < 2 ^ (w - 1) ->
  exists r, IsMemberHashStringCategorical m hash w mode hint w1 w2 a b = Ret r /\ member_cat_spec same_text b a r.
Proof.
  intros Fo T R Hw L. destruct (room_entries mode false hint b R) as (En & Fw). pose proof (alloc_pos mode false _ En) as P.
  destruct (text_lookups hash _ w1 w2 a b P T) as (MI & M & G). unfold IsMemberHashStringCategorical.
  destruct (okt_ret_inv _ _ _ M (fun N => N Fw)) as (t & Et & Ht). fold (text_H hash (AllocMemory mode false (entries hint (Z.of_nat (length b))))).
  rewrite Et. cbn [obind].
  assert (Q : okt (~ fewer_than (AllocMemory mode false (entries hint (Z.of_nat (length b)))) b) (Forall2 (member_cat_row same_text b) a)
    (lookup_rows (m_ord m) (threaded m (Z.of_nat (length a))) CHUNK
      (get_location_cat (text_m1 w1 w2 b) (fun l => l) (text_H hash (AllocMemory mode false (entries hint (Z.of_nat (length b))))) (fun _ => true) t) a (0, false))).
  { apply lookup_rows_ok; auto; [unfold CHUNK; lia|]. intros x Hx. apply (G t Ht x 0 Hx). }
  destruct (okt_ret_inv _ _ _ Q (fun N => N Fw)) as (rs & E & F). unfold text_m1 in E. rewrite E. cbn [in_threads obind].
  eexists. split; [reflexivity|]. exists rs. split; [exact F|]. cbn [fst snd]. split.
  - apply map_ext_in. intros r I. cbn. pose proof (cat_rows_range _ _ _ _ F r I). apply wrap_id; lia.
  - rewrite existsb_exists, in_map_iff. split; intros (r & A & B); exists r; auto.
Qed.

(** ** The items of the arrays *)
Definition size_type (d item : Z) : Z := if (d =? 11) || (d =? 12) then item + 100 else item.

Lemma thirteen d : 0 <= d <= 12 -> In d [0; 1; 2; 3; 4; 5; 6; 7; 8; 9; 10; 11; 12].
Proof. cbn. lia. Qed.
Lemma number_size d n : 0 <= d <= 12 -> item_size d n -> has_table (size_type d n) /\ 0 < n.
Proof.
  intros H S. apply thirteen in H. unfold has_table, size_type. cbn in H.
  repeat match goal with H : _ \/ _ |- _ => destruct H as [<-|H] end; [..|destruct H]; cbn in S |- *; lia.
Qed.

Lemma holds_item a xs x : holds a xs -> In x xs -> length x = Z.to_nat (a_item a) /\ bytesl x.
Proof. intros [_ _ E B] I. split; [eapply items_item; [exact E|exact I]|exact (B x I)]. Qed.
Lemma holds_len a xs : holds a xs -> Z.of_nat (length xs) = a_len a.
Proof. intros [L _ E _]. apply items_len in E. lia. Qed.

Lemma holds_characters d a xs x : holds a xs -> a_dtype a = d -> d = 19 -> In x xs -> length x = (4 * Z.to_nat (a_item a / 4))%nat /\ (length x / 4)%nat = Z.to_nat (a_item a / 4).
Proof.
  intros H E D I. destruct (holds_item a xs x H I) as (L & _). pose proof (ho_item _ _ H) as S. rewrite E, D in S. cbn in S. destruct S as (S0 & S).
  assert (M : a_item a = 4 * (a_item a / 4)) by (apply Z_div_exact_full_2; lia).
  assert (0 <= a_item a / 4) by (apply Z.div_pos; lia).
  assert (L' : length x = (4 * Z.to_nat (a_item a / 4))%nat) by lia. split; [exact L'|]. rewrite L', Nat.mul_comm. apply Nat.div_mul. lia.
Qed.

Lemma value_bits d a1 a2 xs ys x y : holds a1 xs -> holds a2 ys -> a_dtype a1 = d -> a_item a1 = a_item a2 -> In x xs -> In y ys ->
  (0 <= d <= 12 \/ (18 <= d <= 22 /\ (d = 19 -> a_dtype a2 = 19) /\ has_table (a_item a1) /\ a_item a1 < 100)) ->
  (bits_eq (size_type d (a_item a1)) (word x) (word y) <-> value_eq d x y).
Proof.
  intros H1 H2 D Ei Ix Iy C. destruct (holds_item _ _ _ H1 Ix) as (Lx & Bx). destruct (holds_item _ _ _ H2 Iy) as (Ly & By).
  assert (L : length x = length y) by congruence.
  assert (W : word x = word y <-> x = y) by (split; [apply word_inj; auto|congruence]).
  pose proof (ho_item _ _ H1) as S. rewrite D in S. destruct C as [C|(C & U & T & T')].
  - apply thirteen in C. unfold bits_eq, value_eq, size_type. cbn in C.
    repeat match goal with H : _ \/ _ |- _ => destruct H as [<-|H] end; [..|destruct C]; cbn in S; rewrite S; exact W || (cbn; tauto).
  - unfold size_type, value_eq, bits_eq.
    rewrite (proj2 (Z.eqb_neq d 11)), (proj2 (Z.eqb_neq d 12)) by lia. cbn [orb].
    rewrite (proj2 (Z.eqb_neq (a_item a1) 104)), (proj2 (Z.eqb_neq (a_item a1) 108)) by lia.
    rewrite W. unfold characters. destruct (Z.eqb_spec d 18) as [E|N]; cbn [orb].
    { rewrite (proj2 (Z.eqb_neq d 19)) by lia. symmetry. now apply same_text_eq. }
    destruct (Z.eqb_spec d 19) as [E|N']; [|tauto].
    destruct (holds_characters 19 a1 xs x H1 ltac:(congruence) eq_refl Ix) as (X1 & X2). destruct (holds_characters 19 a2 ys y H2 (U E) eq_refl Iy) as (Y1 & Y2).
    rewrite X2, Y2, <- Ei in *. rewrite same_text_eq by now rewrite !chars_len. split; [congruence|]. apply chars_inj; auto.
Qed.

Lemma items_bits d a1 a2 xs ys : holds a1 xs -> holds a2 ys -> a_dtype a1 = d -> a_item a1 = a_item a2 -> plain a1 a2 xs ys ->
  (0 <= d <= 12 \/ 18 <= d <= 22) -> a_item a1 < 100 \/ 0 <= d <= 12 -> bits_ok (size_type d (a_item a1)) (map word xs ++ map word ys).
Proof.
  intros H1 H2 D Ei P C Hi. destruct P as (P1 & P2 & _). rewrite D in *.
  assert (S4 : 0 <= d <= 12 -> a_item a1 <= 8).
  { intros X. pose proof (ho_item _ _ H1) as S. rewrite D in S. apply thirteen in X. cbn in X.
    repeat match goal with H : _ \/ _ |- _ => destruct H as [<-|H] end; [..|destruct X]; cbn in S; lia. }
  assert (S5 : d = 11 -> a_item a1 = 4) by (intros ->; pose proof (ho_item _ _ H1) as S; rewrite D in S; exact S).
  assert (S6 : d = 12 -> a_item a1 = 8) by (intros ->; pose proof (ho_item _ _ H1) as S; rewrite D in S; exact S).
  unfold size_type. split; [|split].
  - intros S. rewrite <- map_app. intros v I. apply in_map_iff in I as (x & <- & I).
    assert (S' : a_item a1 = 1 \/ a_item a1 = 2) by (destruct ((d =? 11) || (d =? 12)) eqn:E; [apply Bool.orb_true_iff in E; rewrite !Z.eqb_eq in E|]; lia).
    assert (B : length x = Z.to_nat (a_item a1) /\ bytesl x).
    { apply in_app_or in I as [I|I]; [exact (holds_item _ _ _ H1 I)|]. rewrite Ei. exact (holds_item _ _ _ H2 I). }
    destruct B as (L & B). apply word_range in B. rewrite L in B.
    destruct ((d =? 11) || (d =? 12)); [lia|]. destruct S' as [E|E]; rewrite E in *; exact B.
  - intros S. destruct (Z.eqb_spec d 11) as [E|E]; [rewrite <- map_app; auto|]. cbn [orb] in S.
    destruct (Z.eqb_spec d 12) as [F|F]; [specialize (S6 F); lia|]. lia.
  - intros S. destruct (Z.eqb_spec d 12) as [E|E]; [rewrite <- map_app; auto|]. rewrite Bool.orb_false_r in S.
    destruct (Z.eqb_spec d 11) as [F|F]; [specialize (S5 F); lia|]. lia.
Qed.

Lemma text_items a xs : holds a xs -> contiguous a -> text_of (a_dtype a =? 19) a = Some (map (characters (a_dtype a)) xs).
Proof.
  intros H C. unfold text_of, characters. rewrite (raw_elements a C), (ho_items _ _ H). destruct (Z.eqb_spec (a_dtype a) 19) as [E|N]; cbn [option_map].
  - f_equal. apply map_ext_in. intros x I. destruct (holds_characters 19 a xs x H E eq_refl I) as (_ & ->). reflexivity.
  - now rewrite map_id.
Qed.
Lemma characters_len a xs s : holds a xs -> In s (map (characters (a_dtype a)) xs) -> length s = text_width (a_dtype a =? 19) (a_item a).
Proof.
  intros H I. apply in_map_iff in I as (x & <- & I). unfold characters, text_width. destruct (Z.eqb_spec (a_dtype a) 19) as [E|N].
  - destruct (holds_characters 19 a xs x H E eq_refl I) as (_ & ->). apply chars_len.
  - apply (holds_item _ _ _ H I).
Qed.
Lemma items_text a1 a2 xs ys : holds a1 xs -> holds a2 ys -> a_dtype a1 = a_dtype a2 -> 18 <= a_dtype a1 <= 22 -> plain a1 a2 xs ys ->
  texts_ok (text_width (a_dtype a1 =? 19) (a_item a1)) (text_width (a_dtype a1 =? 19) (a_item a2))
           (map (characters (a_dtype a1)) xs) (map (characters (a_dtype a1)) ys).
Proof.
  intros H1 H2 D C (_ & _ & P3 & P4). split; [|split].
  - intros s. apply (characters_len _ _ _ H1).
  - rewrite D. intros s. apply (characters_len _ _ _ H2).
  - intros N. assert (Ni : a_item a1 <> a_item a2) by congruence.
    assert (T : a_dtype a1 = 18 \/ a_dtype a1 = 19).
    { pose proof (ho_item _ _ H1) as S1. pose proof (ho_item _ _ H2) as S2. rewrite <- D in S2.
      assert (K : a_dtype a1 = 18 \/ a_dtype a1 = 19 \/ a_dtype a1 = 20 \/ a_dtype a1 = 21 \/ a_dtype a1 = 22) by lia.
      destruct K as [K|[K|[K|[K|K]]]]; auto; [now specialize (P4 K)|rewrite K in *; cbn in S1, S2; congruence..]. }
    auto.
Qed.
Lemma value_text a1 a2 xs ys x y : holds a1 xs -> holds a2 ys -> a_dtype a1 = a_dtype a2 -> 18 <= a_dtype a1 <= 22 -> plain a1 a2 xs ys -> In x xs -> In y ys ->
  (same_text (characters (a_dtype a1) x) (characters (a_dtype a1) y) <-> value_eq (a_dtype a1) x y).
Proof.
  intros H1 H2 D C (_ & _ & _ & P4) Ix Iy. unfold value_eq. rewrite (proj2 (Z.eqb_neq (a_dtype a1) 11)), (proj2 (Z.eqb_neq (a_dtype a1) 12)) by lia.
  destruct (Z.eqb_spec (a_dtype a1) 18) as [E|N]; cbn [orb]; [tauto|]. destruct (Z.eqb_spec (a_dtype a1) 19) as [E|N']; [tauto|].
  unfold characters. rewrite (proj2 (Z.eqb_neq (a_dtype a1) 19)) by lia. apply same_text_eq.
  destruct (holds_item _ _ _ H1 Ix) as (-> & _). destruct (holds_item _ _ _ H2 Iy) as (-> & _). f_equal.
  pose proof (ho_item _ _ H1) as S1. pose proof (ho_item _ _ H2) as S2. rewrite <- D in S2.
  assert (K : a_dtype a1 = 20 \/ a_dtype a1 = 21 \/ a_dtype a1 = 22) by lia.
  destruct K as [K|[K|K]]; [auto|rewrite K in *; cbn in S1, S2; congruence..].
Qed.

(** ** IsMember32 *)
Lemma same_number d1 d2 n1 n2 : same_type d1 d2 -> 0 <= d1 <= 12 -> item_size d1 n1 -> item_size d2 n2 ->
  n1 = n2 /\ 0 <= d2 <= 12 /\ normalize_dtype d1 n1 = normalize_dtype d2 n2 /\ common_dtype d1 = common_dtype d2.
Proof.
  intros E C S1 S2. destruct E as [<-|[(A & B)|(A & B)]].
  - assert (n1 = n2); [|subst; auto]. apply thirteen in C. cbn in C.
    repeat match goal with H : _ \/ _ |- _ => destruct H as [<-|H] end; [..|destruct C]; cbn in S1, S2; congruence.
  - cbn in A, B. destruct A as [<-|[<-|[]]], B as [<-|[<-|[]]]; cbn in S1, S2; subst; cbn; repeat split; lia.
  - cbn in A, B. destruct A as [<-|[<-|[]]], B as [<-|[<-|[]]]; cbn in S1, S2; subst; cbn; repeat split; lia.
Qed.
Lemma normal_number d n : 0 <= d <= 12 -> 0 <= normalize_dtype d n <= 12 /\ 0 <= common_dtype d <= 12 /\
  ((normalize_dtype d n =? 11) || (normalize_dtype d n =? 12)) = ((d =? 11) || (d =? 12)) /\
  ((common_dtype d =? 11) || (common_dtype d =? 12) || (common_dtype d =? 13)) = ((d =? 11) || (d =? 12)).
Proof.
  intros C. apply thirteen in C. cbn in C.
  repeat match goal with H : _ \/ _ |- _ => destruct H as [<-|H] end; [..|destruct C]; cbn; try (destruct (n =? 4)); cbn; repeat split; lia.
Qed.
Lemma same_big d1 d2 : same_type d1 d2 -> 18 <= d1 -> d1 = d2.
Proof. intros [E|[(A & B)|(A & B)]] C; [auto|cbn in A; lia..]. Qed.
Lemma normal_big d n : 18 <= d -> normalize_dtype d n = d /\ common_dtype d = d.
Proof.
  intros H. unfold normalize_dtype, common_dtype. destruct d as [|p|p]; try lia. do 4 (destruct p as [p|p|]; try lia; auto).
Qed.

Lemma equivalent_some n : existsb (Z.eqb n) [1; 2; 4; 8] = true -> exists t, equivalent_type n = Some t /\ (t = 1 \/ t = 3 \/ t = 5 \/ t = 7) /\ has_table n /\ n < 100.
Proof.
  cbn. rewrite !Bool.orb_true_iff, !Z.eqb_eq. unfold has_table. intros [->|[->|[->|[->|E]]]]; try discriminate; cbn; eexists; split; eauto; repeat split; lia.
Qed.
Lemma equivalent_none n : existsb (Z.eqb n) [1; 2; 4; 8] = false -> equivalent_type n = None.
Proof.
  cbn. rewrite !Bool.orb_false_iff, !Z.eqb_neq. intros (A & B & C & D & _). unfold equivalent_type. destruct n as [|p|p]; auto.
  do 4 (destruct p as [p|p|]; try lia; auto).
Qed.

Lemma mode_ok h : h = 1 \/ h = 2 -> exists mode, mode_of h = Some mode /\ (h = 2 -> mode = MASK).
Proof. intros [-> | ->]; cbn; eexists; split; eauto; discriminate. Qed.

Lemma missing_bad d : BAD_INDEX d = missing d.
Proof. unfold BAD_INDEX, missing, index_width. destruct d as [|p|p]; try reflexivity. do 3 (destruct p as [p|p|]; try reflexivity). Qed.
Lemma rows_size n : index_size_type n = rows_type n. Proof. reflexivity. Qed.

Lemma ismember_number m a1 a2 xs ys d mode hint : fair (m_ord m) -> holds a1 xs -> holds a2 ys -> contiguous a1 -> contiguous a2 ->
  a_dtype a1 = d -> a_item a1 = a_item a2 -> plain a1 a2 xs ys -> room hint (a_len a2) ->
  (0 <= d <= 12 \/ (18 <= d <= 22 /\ (d = 19 -> a_dtype a2 = 19) /\ has_table (a_item a1) /\ a_item a1 < 100)) ->
  exists r, (let! a := lift (raw (a_item a1) a1) in
             let! b := lift (raw (a_item a1) a2) in
             let! r := IsMemberHash32 m (index_size_type (a_len a2)) (size_type d (a_item a1)) mode hint (map word a) (map word b) in
             match r with
             | Some rs => Ret (found_of (index_size_type (a_len a2)) rs)
             | None => Ret (mkFound (new_array m 0 (a_len a1)) (index_size_type (a_len a2)) (new_array m 1 (a_len a1)))
             end) = Ret r /\ f_dtype r = index_size_type (a_len a2) /\ found_rows d xs ys r.
Proof.
  intros Fo H1 H2 C1 C2 D Ei P R C.
  rewrite (raw_elements a1 C1), (ho_items _ _ H1). rewrite Ei, (raw_elements a2 C2), (ho_items _ _ H2), <- Ei. cbn [lift obind].
  pose proof (holds_len _ _ H1) as L1. pose proof (holds_len _ _ H2) as L2.
  assert (Rb : room hint (Z.of_nat (length (map word ys)))) by now rewrite map_length, L2.
  assert (Fit : Z.of_nat (length (map word ys)) < 2 ^ (index_width (index_size_type (a_len a2)) - 1)).
  { rewrite map_length, L2. apply index_fits. pose proof (ho_len _ _ H2). destruct R. lia. }
  assert (T : has_table (size_type d (a_item a1))).
  { destruct C as [C|(C & _ & T & _)]; [apply number_size; auto; rewrite <- D; apply (ho_item _ _ H1)|]. unfold size_type.
    rewrite (proj2 (Z.eqb_neq d 11)), (proj2 (Z.eqb_neq d 12)) by lia. exact T. }
  destruct (members_number m (index_size_type (a_len a2)) (size_type d (a_item a1)) mode hint (map word xs) (map word ys) Fo T) as (rs & E & M); auto.
  { apply (items_bits d a1 a2); auto; destruct C as [C|(C & _ & _ & C')]; auto. }
  rewrite E. cbn [obind]. eexists. split; [reflexivity|].
  apply member_spec_map in M.
  assert (M' : member_spec (value_eq d) (BAD_INDEX (index_size_type (a_len a2))) ys xs rs).
  { revert M. apply member_spec_iff. intros x y Ix Iy. apply (value_bits d a1 a2 xs ys); auto. }
  destruct (found_of_rows _ _ _ _ _ M') as (F1 & F2 & F3); [rewrite map_length in Fit; lia|]. split; [exact F3|]. exists rs. rewrite F3, <- missing_bad. auto.
Qed.

Lemma args_mode args n : args_ok args n -> exists mode, mode_of (match args with Some (h, _) => h | None => 2 end) = Some mode /\
  room (match args with Some (_, Some k) => k | _ => 0 end) n.
Proof.
  destruct args as [[h o]|]; cbn; [|intros R; exists MASK; auto]. intros (H & R). destruct (mode_ok h H) as (mode & E & _). exists mode. destruct o; auto.
Qed.

Lemma ismember_ok m a1 a2 xs ys args : fair (m_ord m) -> holds a1 xs -> holds a2 ys -> contiguous a1 -> contiguous a2 ->
  same_type (a_dtype a1) (a_dtype a2) -> comparable (a_dtype a1) -> 0 < a_item a1 -> plain a1 a2 xs ys -> args_ok args (a_len a2) ->
  exists r, PyIsMember32 m a1 a2 args = Ret r /\
    f_dtype r = index_size_type (if as_text a1 a2 then Z.max (a_len a1) (a_len a2) else a_len a2) /\ found_rows (a_dtype a1) xs ys r.
Proof.
  intros Fo H1 H2 C1 C2 St Co Hi P Ar. destruct (args_mode args _ Ar) as (mode & Em & R). unfold PyIsMember32.
  rewrite (proj2 (Z.eqb_neq (a_item a1) 0)) by lia.
  set (hint := match args with Some (_, Some k) => k | _ => 0 end) in *. set (hm := match args with Some (h, _) => h | None => 2 end) in *.
  pose proof (ho_item _ _ H1) as S1. pose proof (ho_item _ _ H2) as S2. destruct Co as [Co|Co].
  - destruct (same_number _ _ _ _ St Co S1 S2) as (Ei & Co2 & En & _). rewrite <- En, Z.eqb_refl. cbn [negb].
    destruct (normal_number (a_dtype a1) (a_item a1) Co) as (Nn & _ & Fl & _).
    rewrite (proj2 (Z.eqb_neq (normalize_dtype (a_dtype a1) (a_item a1)) 17)) by lia. rewrite Em. cbn [lift obind].
    rewrite (proj2 (Z.leb_gt 18 (normalize_dtype (a_dtype a1) (a_item a1)))) by lia. cbn [andb].
    rewrite (proj2 (Z.leb_gt 18 (normalize_dtype (a_dtype a1) (a_item a1)))) by lia. rewrite Fl. fold (size_type (a_dtype a1) (a_item a1)).
    unfold as_text. rewrite (proj2 (Z.leb_gt 18 (a_dtype a1))) by lia. cbn [andb].
    apply (ismember_number m a1 a2 xs ys (a_dtype a1) mode hint); auto.
  - pose proof (same_big _ _ St ltac:(lia)) as Ed. rewrite <- Ed. rewrite !(proj1 (normal_big (a_dtype a1) _ ltac:(lia))), Z.eqb_refl. cbn [negb].
    rewrite (proj2 (Z.eqb_neq (a_dtype a1) 17)) by lia. rewrite Em. cbn [lift obind]. rewrite (proj2 (Z.leb_le 18 (a_dtype a1))) by lia. cbn [andb].
    unfold as_text. rewrite (proj2 (Z.leb_le 18 (a_dtype a1))) by lia. cbn [andb].
    destruct ((a_item a1 =? a_item a2) && existsb (Z.eqb (a_item a1)) [1; 2; 4; 8]) eqn:Al; cbn [negb].
    + apply Bool.andb_true_iff in Al as (Ei & Al). rewrite Ei. apply Z.eqb_eq in Ei. destruct (equivalent_some _ Al) as (t & Et & Ht & Tb & Lt). rewrite Et.
      rewrite (proj2 (Z.leb_gt 18 t)) by lia. rewrite (proj2 (Z.eqb_neq t 11)), (proj2 (Z.eqb_neq t 12)) by lia. cbn [orb].
      assert (Sz : a_item a1 = size_type (a_dtype a1) (a_item a1)).
      { unfold size_type. rewrite (proj2 (Z.eqb_neq (a_dtype a1) 11)), (proj2 (Z.eqb_neq (a_dtype a1) 12)) by lia. reflexivity. }
      pose proof (ismember_number m a1 a2 xs ys (a_dtype a1) mode hint Fo H1 H2 C1 C2 eq_refl Ei P R) as Q. rewrite <- Sz in Q.
      apply Q. right. repeat split; auto; try lia; congruence.
    + assert (Dt : (if a_item a1 =? a_item a2 then match equivalent_type (a_item a1) with Some t => t | None => a_dtype a1 end else a_dtype a1) = a_dtype a1).
      { destruct (a_item a1 =? a_item a2); auto. cbn [andb] in Al. now rewrite (equivalent_none _ Al). }
      rewrite Dt, (proj2 (Z.leb_le 18 (a_dtype a1))) by lia.
      rewrite (text_items a1 xs H1 C1). pose proof (text_items a2 ys H2 C2) as T2. rewrite <- Ed in T2. rewrite T2. cbn [lift obind].
      pose proof (holds_len _ _ H1) as L1. pose proof (holds_len _ _ H2) as L2.
      replace (if a_len a1 <? a_len a2 then a_len a2 else a_len a1) with (Z.max (a_len a1) (a_len a2)) by (destruct (Z.ltb_spec (a_len a1) (a_len a2)); lia).
      set (di := index_size_type (Z.max (a_len a1) (a_len a2))).
      destruct (members_text (text_hash m (a_dtype a1 =? 19)) mode hint (BAD_INDEX di) (text_width (a_dtype a1 =? 19) (a_item a1))
        (text_width (a_dtype a1 =? 19) (a_item a2)) (map (characters (a_dtype a1)) xs) (map (characters (a_dtype a1)) ys)) as (rs & E & M).
      { apply items_text; auto. } { now rewrite map_length, L2. }
      rewrite E. cbn [obind]. eexists. split; [reflexivity|]. apply member_spec_map in M.
      assert (M' : member_spec (value_eq (a_dtype a1)) (BAD_INDEX di) ys xs rs).
      { revert M. apply member_spec_iff. intros x y Ix Iy. apply (value_text a1 a2 xs ys); auto. }
      destruct (found_of_rows _ _ _ _ _ M') as (F1 & F2 & F3).
      { rewrite L2. assert (Fit : a_len a2 < 2 ^ (index_width di - 1)); [|lia]. pose proof (ho_len _ _ H2). destruct R.
        unfold di, index_size_type. destruct (Z.ltb_spec (Z.max (a_len a1) (a_len a2)) 100); [cbn; lia|].
        destruct (Z.ltb_spec (Z.max (a_len a1) (a_len a2)) 30000); [cbn; lia|]. destruct (Z.ltb_spec (Z.max (a_len a1) (a_len a2)) 2000000000); cbn; lia. }
      split; [exact F3|]. exists rs. rewrite F3, <- missing_bad. auto.
Qed.

(** ** IsMemberCategorical *)
Lemma categorical_ok m a1 a2 xs ys hmode hint : fair (m_ord m) -> holds a1 xs -> holds a2 ys -> contiguous a1 -> contiguous a2 ->
  same_type (a_dtype a1) (a_dtype a2) -> comparable (a_dtype a1) -> 0 < a_item a1 -> plain a1 a2 xs ys ->
  hmode = 1 \/ hmode = 2 -> room hint (a_len a2) -> (a_dtype a1 < 18 -> a_item a1 < 4 -> hmode = 2) ->
  a_len a1 < 2 ^ 63 -> (a_dtype a1 < 18 -> a_len a1 < 2100000000 -> a_len a2 < 2 ^ 31) ->
  exists r, PyIsMemberCategorical m a1 a2 hmode hint = Ret r /\
    c_dtype r = (if 18 <=? a_dtype a1 then index_size_type (a_len a2) else if a_len a1 <? 2100000000 then 5 else 7) /\
    member_cat_spec (value_eq (a_dtype a1)) ys xs (c_index r, c_missed r).
Proof.
  intros Fo H1 H2 C1 C2 St Co Hi P Hh R Sm N1 N2. destruct (mode_ok hmode Hh) as (mode & Em & Mm). unfold PyIsMemberCategorical.
  rewrite (proj2 (Z.eqb_neq (a_item a1) 0)) by lia.
  pose proof (holds_len _ _ H1) as L1. pose proof (holds_len _ _ H2) as L2.
  pose proof (ho_item _ _ H1) as S1. pose proof (ho_item _ _ H2) as S2. destruct Co as [Co|Co].
  - destruct (same_number _ _ _ _ St Co S1 S2) as (Ei & Co2 & _ & En). rewrite <- En, Z.eqb_refl. cbn [negb].
    destruct (normal_number (a_dtype a1) (a_item a1) Co) as (_ & Nn & _ & Fl).
    rewrite (proj2 (Z.eqb_neq (common_dtype (a_dtype a1)) 17)) by lia. rewrite Em. cbn [lift obind].
    rewrite (proj2 (Z.leb_gt 18 (common_dtype (a_dtype a1)))) by lia. rewrite (proj2 (Z.leb_gt 18 (a_dtype a1))) by lia. rewrite Fl.
    fold (size_type (a_dtype a1) (a_item a1)).
    rewrite (raw_elements a1 C1), (ho_items _ _ H1). rewrite Ei, (raw_elements a2 C2), (ho_items _ _ H2), <- Ei. cbn [lift obind].
    set (di := if a_len a1 <? 2100000000 then 5 else 7).
    assert (F2 : a_len a2 < 2 ^ (index_width di - 1) /\ a_len a1 < 2 ^ (index_width di - 1)).
    { unfold di. destruct (Z.ltb_spec (a_len a1) 2100000000) as [B|B].
      - change (2 ^ (index_width 5 - 1)) with (2 ^ 31). split; [apply N2; lia|]. change (2 ^ 31) with 2147483648. lia.
      - change (2 ^ (index_width 7 - 1)) with (2 ^ 63). split; [|lia]. destruct R. change (2 ^ 63) with 9223372036854775808. lia. }
    destruct (categories_number m di (size_type (a_dtype a1) (a_item a1)) mode hint (map word xs) (map word ys)) as ((idx & ms) & E & M).
    { apply number_size; auto. } { apply (items_bits (a_dtype a1) a1 a2); auto. }
    { intros Sz. apply Mm, Sm; [lia|]. unfold size_type in Sz. destruct ((a_dtype a1 =? 11) || (a_dtype a1 =? 12)); lia. }
    { now rewrite map_length, L2. } { rewrite map_length, L2. tauto. } { rewrite map_length, L1. tauto. }
    rewrite E. cbn [obind]. eexists. split; [reflexivity|]. split; [reflexivity|]. cbn [c_index c_missed].
    apply member_cat_map in M. destruct M as (rs & F & Ei' & Ms). cbn [fst snd] in Ei', Ms.
    exists rs. split; [|split; [|exact Ms]].
    + revert F. apply Forall2_impl_in. intros x r Ix. apply member_cat_row_iff. intros y Iy. apply (value_bits (a_dtype a1) a1 a2 xs ys); auto.
    + cbn [fst]. rewrite Ei', map_map. apply map_ext_in. intros r I. pose proof (cat_rows_range _ _ _ _ F r I). apply wrap_id; [apply width_pos|]. lia.
  - pose proof (same_big _ _ St ltac:(lia)) as Ed. rewrite <- Ed. rewrite !(proj2 (normal_big (a_dtype a1) 0 ltac:(lia))), Z.eqb_refl. cbn [negb].
    rewrite (proj2 (Z.eqb_neq (a_dtype a1) 17)) by lia. rewrite Em. cbn [lift obind]. rewrite (proj2 (Z.leb_le 18 (a_dtype a1))) by lia.
    rewrite (text_items a1 xs H1 C1). pose proof (text_items a2 ys H2 C2) as T2. rewrite <- Ed in T2. rewrite T2. cbn [lift obind].
    destruct (categories_text m (text_hash m (a_dtype a1 =? 19)) (index_width (index_size_type (a_len a2))) mode hint (text_width (a_dtype a1 =? 19) (a_item a1))
        (text_width (a_dtype a1 =? 19) (a_item a2)) (map (characters (a_dtype a1)) xs) (map (characters (a_dtype a1)) ys)) as (r & E & M); auto.
    { apply items_text; auto. } { now rewrite map_length, L2. } { apply width_pos. }
    { rewrite map_length, L2. apply index_fits. pose proof (ho_len _ _ H2). destruct R. lia. }
    rewrite E. cbn [obind]. eexists. split; [reflexivity|]. split; [reflexivity|]. cbn [c_index c_missed]. rewrite <- surjective_pairing.
    apply member_cat_map in M. revert M. apply member_cat_spec_iff. intros x y Ix Iy. apply (value_text a1 a2 xs ys); auto.
Qed.

(** ** What is refused, and what is not written *)
Lemma normal_same d1 d2 n1 n2 : item_size d1 n1 -> item_size d2 n2 -> normalize_dtype d1 n1 = normalize_dtype d2 n2 -> same_type d1 d2.
Proof.
  intros S1 S2 E. unfold same_type.
  assert (K : forall d n, item_size d n -> normalize_dtype d n = if d =? 7 then 9 else if d =? 8 then 10 else d).
  { clear. intros d n S. unfold normalize_dtype. destruct (Z.eqb_spec d 7) as [->|N]; [cbn in S; subst; reflexivity|].
    destruct (Z.eqb_spec d 8) as [->|N']; [cbn in S; subst; reflexivity|]. destruct d as [|p|p]; auto. do 4 (destruct p as [p|p|]; try lia; auto). }
  rewrite (K _ _ S1), (K _ _ S2) in E. cbn [In].
  destruct (Z.eqb_spec d1 7), (Z.eqb_spec d2 7); try lia; destruct (Z.eqb_spec d1 8), (Z.eqb_spec d2 8); lia.
Qed.
Lemma common_same d1 d2 : common_dtype d1 = common_dtype d2 -> same_type d1 d2.
Proof.
  intros E. unfold same_type.
  assert (K : forall d, common_dtype d = if d =? 9 then 7 else if d =? 10 then 8 else d).
  { clear. intros d. unfold common_dtype. destruct (Z.eqb_spec d 9) as [->|N]; [reflexivity|].
    destruct (Z.eqb_spec d 10) as [->|N']; [reflexivity|]. destruct d as [|p|p]; auto. do 4 (destruct p as [p|p|]; try lia; auto). }
  rewrite !K in E. cbn [In].
  destruct (Z.eqb_spec d1 9), (Z.eqb_spec d2 9); try lia; destruct (Z.eqb_spec d1 10), (Z.eqb_spec d2 10); lia.
Qed.

Lemma ismember_refused m a1 a2 xs ys args : holds a1 xs -> holds a2 ys ->
  ~ same_type (a_dtype a1) (a_dtype a2) \/ a_item a1 = 0 \/ a_dtype a1 = 17 -> PyIsMember32 m a1 a2 args = Throw.
Proof.
  intros H1 H2 C. unfold PyIsMember32.
  destruct (Z.eqb_spec (normalize_dtype (a_dtype a1) (a_item a1)) (normalize_dtype (a_dtype a2) (a_item a2))) as [E|N]; cbn [negb]; [|reflexivity].
  destruct (Z.eqb_spec (a_item a1) 0) as [Z0|NZ]; [reflexivity|].
  destruct C as [C|[C|C]]; [|contradiction|rewrite C; reflexivity].
  destruct C. exact (normal_same _ _ _ _ (ho_item _ _ H1) (ho_item _ _ H2) E).
Qed.
Lemma categorical_refused m a1 a2 xs ys hmode hint : holds a1 xs -> holds a2 ys ->
  ~ same_type (a_dtype a1) (a_dtype a2) \/ a_item a1 = 0 \/ a_dtype a1 = 17 -> PyIsMemberCategorical m a1 a2 hmode hint = Throw.
Proof.
  intros H1 H2 C. unfold PyIsMemberCategorical.
  destruct (Z.eqb_spec (common_dtype (a_dtype a1)) (common_dtype (a_dtype a2))) as [E|N]; cbn [negb]; [|reflexivity].
  destruct (Z.eqb_spec (a_item a1) 0) as [Z0|NZ]; [reflexivity|].
  destruct C as [C|[C|C]]; [|contradiction|rewrite C; reflexivity].
  destruct C. exact (common_same _ _ E).
Qed.

Lemma ismember_unwritten m a1 a2 xs ys args : holds a1 xs -> holds a2 ys -> contiguous a1 -> contiguous a2 ->
  a_dtype a1 = a_dtype a2 -> a_dtype a1 = 13 \/ a_dtype a1 = 15 \/ a_dtype a1 = 16 -> args_ok args (a_len a2) ->
  PyIsMember32 m a1 a2 args = Ret (mkFound (new_array m 0 (a_len a1)) (index_size_type (a_len a2)) (new_array m 1 (a_len a1))).
Proof.
  intros H1 H2 C1 C2 Ed D Ar. destruct (args_mode args _ Ar) as (mode & Em & R). unfold PyIsMember32.
  pose proof (ho_item _ _ H1) as S1. pose proof (ho_item _ _ H2) as S2. rewrite <- Ed in *.
  assert (Ei : a_item a1 = a_item a2) by (destruct D as [E|[E|E]]; rewrite E in *; cbn in S1, S2; congruence).
  set (hint := match args with Some (_, Some k) => k | _ => 0 end) in *. set (hm := match args with Some (h, _) => h | None => 2 end) in *.
  pose proof (raw_elements a1 C1) as R1. rewrite (ho_items _ _ H1) in R1. pose proof (raw_elements a2 C2) as R2. rewrite (ho_items _ _ H2), <- Ei in R2.
  rewrite <- Ei. destruct D as [E|[E|E]]; rewrite E in *; cbn in S1; rewrite S1 in *; cbn -[raw index_size_type new_array]; rewrite Em; cbn -[raw index_size_type new_array];
    rewrite R1, R2; reflexivity.
Qed.
Lemma categorical_unwritten m a1 a2 xs ys hmode hint : holds a1 xs -> holds a2 ys -> contiguous a1 -> contiguous a2 ->
  a_dtype a1 = a_dtype a2 -> a_dtype a1 = 13 \/ a_dtype a1 = 15 \/ a_dtype a1 = 16 -> hmode = 1 \/ hmode = 2 ->
  PyIsMemberCategorical m a1 a2 hmode hint = Ret (mkCats false (if a_len a1 <? 2100000000 then 5 else 7) (new_array m 0 (a_len a1))).
Proof.
  intros H1 H2 C1 C2 Ed D Hh. destruct (mode_ok hmode Hh) as (mode & Em & _). unfold PyIsMemberCategorical.
  pose proof (ho_item _ _ H1) as S1. pose proof (ho_item _ _ H2) as S2. rewrite <- Ed in *.
  assert (Ei : a_item a1 = a_item a2) by (destruct D as [E|[E|E]]; rewrite E in *; cbn in S1, S2; congruence).
  pose proof (raw_elements a1 C1) as R1. rewrite (ho_items _ _ H1) in R1. pose proof (raw_elements a2 C2) as R2. rewrite (ho_items _ _ H2), <- Ei in R2.
  destruct D as [E|[E|E]]; rewrite E in *; cbn in S1; rewrite S1 in *; cbn -[raw index_size_type new_array]; rewrite Em; cbn -[raw index_size_type new_array];
    rewrite R1, R2; reflexivity.
Qed.

Lemma zeros_holds d item n : 0 <= n -> 0 <= item -> item_size d item -> holds (zeros d item n) (repeat (repeat 0 (Z.to_nat item)) (Z.to_nat n)).
Proof.
  intros Hn Hi S. pose proof (zeros_elements d item n Hi Hn) as E. constructor; auto. intros x I c J. exact (zeros_bytes d item n _ Hi Hn E x I c J).
Qed.

Definition one_thread : machine := mkMach false in_order (fun z => z) (fun _ => 0) (fun _ => 0) (fun _ _ => 0).
Lemma many_rows m d mode hint a b : 2 ^ (index_width d - 1) <= Z.of_nat (length b) -> IsMemberHashCategorical m d 4 mode hint a b = UB.
Proof. intros L. unfold IsMemberHashCategorical, categories_of, counted. rewrite (proj2 (Z.ltb_ge _ _) L). reflexivity. Qed.
Lemma categorical_rows : exists m a1 a2 xs ys, fair (m_ord m) /\ holds a1 xs /\ holds a2 ys /\ contiguous a1 /\ contiguous a2 /\
  a_dtype a1 = 5 /\ a_dtype a2 = 5 /\ PyIsMemberCategorical m a1 a2 2 0 = UB.
Proof.
  exists one_thread, (zeros 5 4 1), (zeros 5 4 (2 ^ 31)). do 2 eexists. split; [intros B l; apply Permutation_refl|].
  assert (Q : 0 <= 2 ^ 31) by (apply Z.pow_nonneg; lia).
  split; [apply zeros_holds; [lia|lia|reflexivity]|]. split; [apply zeros_holds; [exact Q|lia|reflexivity]|].
  split; [reflexivity|]. split; [reflexivity|]. split; [reflexivity|]. split; [reflexivity|].
  pose proof (raw_elements (zeros 5 4 1) eq_refl) as R1. pose proof (raw_elements (zeros 5 4 (2 ^ 31)) eq_refl) as R2.
  rewrite zeros_elements in R1 by lia. rewrite zeros_elements in R2 by (exact Q || lia).
  change (a_item (zeros 5 4 1)) with 4 in *. change (a_item (zeros 5 4 (2 ^ 31))) with 4 in *.
  unfold PyIsMemberCategorical. change (a_dtype (zeros 5 4 1)) with 5. change (a_dtype (zeros 5 4 (2 ^ 31))) with 5. change (a_item (zeros 5 4 1)) with 4.
  change (a_len (zeros 5 4 1)) with 1. cbn [common_dtype Z.eqb Pos.eqb negb mode_of lift obind Z.leb Z.compare Pos.compare Pos.compare_cont orb Z.ltb].
  rewrite R1, R2. cbn [lift obind].
  assert (L : 2 ^ (index_width 5 - 1) <= Z.of_nat (length (map word (repeat (repeat 0 (Z.to_nat 4)) (Z.to_nat (2 ^ 31)))))).
  { rewrite map_length, repeat_length, Z2Nat.id by exact Q. apply Z.le_refl. }
  generalize dependent (map word (repeat (repeat 0 (Z.to_nat 4)) (Z.to_nat (2 ^ 31)))). intros ys L.
  rewrite many_rows by exact L. reflexivity.
Qed.

(** a table of 53 positions with 53 items, and 32768 rows to look up *)
Definition full_items : array := mkArr 5 4 53 4 0 (concat (map (fun k => [Z.of_nat k; 0; 0; 0]) (seq 1 53))).
Definition many_threads : machine := mkMach true in_order (fun z => z) (fun _ => 0) (fun _ => 0) (fun _ _ => 0).
Lemma first_throws {A B} ord thr c (f : A -> out B) x n d : (0 < c)%nat -> f x = Throw -> lookup_rows ord thr c f (repeat x (S n)) d = Throw.
Proof.
  intros Hc E. unfold lookup_rows. rewrite chunk_calls_map by auto. rewrite repeat_length. cbn [seq map repeat nth_error lift obind all_ret].
  rewrite E. reflexivity.
Qed.
Lemma hint_throws m b t x n : Z.of_nat (length b) < 128 -> sk_make Z.eqb (fun _ => true) (int_hash (m_crc m) 4 PRIME) 53 b = Ret t ->
  sk_get Z.eqb (fun _ => true) (int_hash (m_crc m) 4 PRIME) 53 (BAD_INDEX 1) t x = Throw -> m_on m = true -> 32768 <= Z.of_nat (S n) ->
  IsMemberHash32 m 1 4 PRIME 1 (repeat x (S n)) b = UB.
Proof.
  intros L E G On N. unfold IsMemberHash32, members_of, find_members, counted.
  change (AllocMemory PRIME false (entries 1 (Z.of_nat (length b)))) with 53. change (2 ^ (index_width 1 - 1)) with 128.
  rewrite (proj2 (Z.ltb_lt _ _) L), E. cbn [obind]. rewrite first_throws by (auto; unfold CHUNK; lia).
  unfold threaded. rewrite repeat_length, On, (proj2 (Z.leb_le _ _) N). reflexivity.
Qed.
Lemma ismember_hint : exists m a1 a2 xs ys, fair (m_ord m) /\ holds a1 xs /\ holds a2 ys /\ contiguous a1 /\ contiguous a2 /\
  a_dtype a1 = 5 /\ a_dtype a2 = 5 /\ a_len a2 < 100 /\ PyIsMember32 m a1 a2 (Some (1, Some 1)) = UB.
Proof.
  exists many_threads, (zeros 5 4 32768), full_items. do 2 eexists. split; [intros B l; apply Permutation_refl|].
  assert (E2 : elements full_items = Some (map (fun k => [Z.of_nat k; 0; 0; 0]) (seq 1 53))) by (vm_compute; reflexivity).
  split; [apply zeros_holds; [lia|lia|reflexivity]|].
  split.
  { constructor; [cbn; lia|reflexivity|exact E2|]. intros x I c J. apply in_map_iff in I as (k & <- & I). apply in_seq in I. cbn in J. lia. }
  split; [reflexivity|]. split; [reflexivity|]. split; [reflexivity|]. split; [reflexivity|]. split; [cbn; lia|].
  pose proof (raw_elements (zeros 5 4 32768) eq_refl) as R1. pose proof (raw_elements full_items eq_refl) as R2.
  rewrite zeros_elements in R1 by lia. rewrite E2 in R2.
  change (a_item (zeros 5 4 32768)) with 4 in *. change (a_item full_items) with 4 in *.
  unfold PyIsMember32. change (a_dtype (zeros 5 4 32768)) with 5. change (a_dtype full_items) with 5. change (a_item (zeros 5 4 32768)) with 4.
  change (a_item full_items) with 4. change (a_len full_items) with 53.
  cbn [normalize_dtype Z.eqb Pos.eqb negb mode_of lift obind Z.leb Z.compare Pos.compare Pos.compare_cont orb andb Z.ltb].
  rewrite R1, R2. cbn [lift obind].
  assert (Et : exists t, sk_make Z.eqb (fun _ => true) (int_hash (m_crc many_threads) 4 PRIME) 53 (map word (map (fun k => [Z.of_nat k; 0; 0; 0]) (seq 1 53))) = Ret t /\
     sk_get Z.eqb (fun _ => true) (int_hash (m_crc many_threads) 4 PRIME) 53 (BAD_INDEX 1) t 0 = Throw).
  { eexists. split; [vm_compute; reflexivity|vm_compute; reflexivity]. }
  destruct Et as (t & Et & Eg).
  assert (Ew : map word (repeat (repeat 0 (Z.to_nat 4)) (Z.to_nat 32768)) = repeat 0 (S (Z.to_nat 32767))).
  { replace (Z.to_nat 32768) with (S (Z.to_nat 32767)) by lia. generalize (Z.to_nat 32767). intros n. induction n as [|n IH]; [reflexivity|].
    cbn [repeat map] in *. rewrite IH. reflexivity. }
  rewrite Ew. change (index_size_type 53) with 1. rewrite (hint_throws many_threads _ t 0 (Z.to_nat 32767)); [reflexivity| |exact Et|exact Eg|reflexivity|lia].
  rewrite !map_length, seq_length. cbn. lia.
Qed.
