(** Membership for each kind of key. *)
From Verif Require Import Base Mem MemLemmas Par HashModel HashTable HashSpec HashProofs.
Local Open Scope Z_scope.

(** ** Table sizes and hash ranges *)

Lemma pow2_search_ok fuel : forall i n, 0 <= i -> i + Z.of_nat fuel = 63 -> n <= 2 ^ 62 ->
  (0 < fuel)%nat -> exists j, i <= j <= 62 /\ pow2_search fuel i n = 2 ^ j /\ n <= 2 ^ j.
Proof.
  induction fuel as [|f IH]; intros i n Hi Hf Hn H0; [lia|]. cbn [pow2_search].
  destruct (Z.ltb_spec (2 ^ i) n).
  - destruct f as [|f'].
    + assert (i = 62) by lia. subst. lia.
    + destruct (IH (i + 1) n) as (j & Hj & E & L); try lia. exists j. split; [lia|]. auto.
  - exists i. split; [lia|]. auto.
Qed.

Lemma alloc_gt mode f n : 0 <= n < 68719476731 -> n < AllocMemory mode f n.
Proof.
  intros H. destruct mode; unfold AllocMemory.
  - unfold GetHashSize. destruct (find _ _) eqn:E.
    + apply find_some in E as (_ & E). lia.
    + exfalso. apply (find_none _ _ E 68719476731) in H as X || idtac.
      pose proof (find_none _ _ E 68719476731) as X. cbv beta in X. rewrite Z.ltb_ge in X. 
      assert (In 68719476731 PRIME_NUMBERS) by (unfold PRIME_NUMBERS; cbn; tauto). specialize (X H0). lia.
  - unfold GetHashSize. destruct (pow2_search_ok 63 0 (n * (if f then 8 else 2))) as (j & Hj & -> & L); try lia.
    { destruct f; lia. }
    destruct (Z.ltb_spec (2 ^ j) 65536); destruct f; lia.
Qed.

Lemma alloc_pos mode f n : n < 68719476731 -> 0 < AllocMemory mode f n.
Proof.
  intros H. destruct (Z.leb_spec 0 n).
  - pose proof (alloc_gt mode f n). lia.
  - destruct mode; unfold AllocMemory.
    + unfold GetHashSize, PRIME_NUMBERS. cbn [find]. rewrite (proj2 (Z.ltb_lt n 53)) by lia. lia.
    + destruct (Z.ltb_spec (GetHashSize MASK (n * (if f then 8 else 2))) 65536); lia.
Qed.

Lemma land_range a b : 0 <= b -> 0 <= Z.land a b <= b.
Proof.
  intros Hb. split; [apply Z.land_nonneg; auto|].
  assert (E : Z.land a b + Z.ldiff b a = b).
  { rewrite (Z.land_comm a b). rewrite Z.add_nocarry_lxor.
    - apply Z.bits_inj. intros i. rewrite Z.lxor_spec, Z.land_spec, Z.ldiff_spec. now destruct (Z.testbit b i), (Z.testbit a i).
    - apply Z.bits_inj. intros i. rewrite Z.land_spec, Z.land_spec, Z.ldiff_spec, Z.bits_0. now destruct (Z.testbit b i), (Z.testbit a i). }
  assert (0 <= Z.ldiff b a) by (apply Z.ldiff_nonneg; auto). lia.
Qed.

Lemma mask_range size h : 0 < size -> 0 <= mask_hash size h < size.
Proof. intros H. unfold mask_hash. pose proof (land_range h (size - 1)). lia. Qed.

Lemma int_hash_range crc isz mode size x : 0 < size -> 0 <= int_hash crc isz mode size x < size.
Proof. intros H. destruct mode; cbn; [apply Z.mod_pos_bound; auto|]. now apply mask_range. Qed.

Lemma f32_range mode size x : 0 < size -> 0 <= hash_float32 mode size x < size.
Proof. intros H. destruct mode; cbn; [apply Z.mod_pos_bound; auto|]. now apply mask_range. Qed.

Lemma f64_range mode size x : 0 < size -> 0 <= hash_float64 mode size x < size.
Proof. intros H. destruct mode; cbn; [apply Z.mod_pos_bound; auto|]. now apply mask_range. Qed.

Lemma fewer_incl {K} n (l l' : list K) : incl l l' -> fewer_than n l' -> fewer_than n l.
Proof. intros H (U & HU & L). exists U. split; auto. eapply incl_tran; eauto. Qed.

Lemma fewer_map {K L} n (f : K -> L) l : fewer_than n l -> fewer_than n (map f l).
Proof. intros (U & HU & HL). exists (map f U). split; [now apply incl_map | now rewrite map_length]. Qed.

Lemma fewer_length {K} n (l : list K) : Z.of_nat (length l) < n -> fewer_than n l.
Proof. intros H. exists l. split; auto. apply incl_refl. Qed.

Lemma incl_filter {K} (f : K -> bool) l : incl (filter f l) l.
Proof. intros x Hx. now apply filter_In in Hx. Qed.

Lemma fewer_default {K} mode f (b : list K) : Z.of_nat (length b) < 68719476731 ->
  fewer_than (AllocMemory mode f (entries 0 (Z.of_nat (length b)))) b.
Proof. intros H. apply fewer_length. cbn. apply alloc_gt. lia. Qed.

Lemma member_spec_iff {A B} (e e' : A -> B -> Prop) bad (b : list B) (a : list A) r :
  (forall x y, In x a -> In y b -> e x y <-> e' x y) -> member_spec e bad b a r -> member_spec e' bad b a r.
Proof. intros H. apply Forall2_impl_in. intros x y Hx. apply member_row_iff. auto. Qed.

Lemma member_cat_spec_iff {A B} (e e' : A -> B -> Prop) (b : list B) (a : list A) r :
  (forall x y, In x a -> In y b -> e x y <-> e' x y) -> member_cat_spec e b a r -> member_cat_spec e' b a r.
Proof.
  intros H (rs & F & R). exists rs. split; auto. revert F. apply Forall2_impl_in. intros x y Hx. apply member_cat_row_iff. auto.
Qed.

(** ** Integers *)

Section Ints.
  Context (H : Z -> Z -> Z) (size : Z) (a b : list Z) (HH : forall x, In x (a ++ b) -> 0 <= H size x < size) (Hs : 0 < size).

  Lemma int_member ord thr bad : fair ord ->
    okt (~ fewer_than size b) (member_spec eq bad b a) (is_member Z.eqb (fun _ => true) H ord thr size bad a b).
  Proof.
    intros Ho. eapply okt_weaken.
    - apply (is_member_ok Z.eqb (fun _ => true) H (fun x => x) (H size) size a b); auto; try lia.
    - intros T C. apply T. rewrite map_id. eapply fewer_incl; [apply incl_filter|auto].
    - intros r. apply member_spec_iff. intros x y _ _. unfold sk_eqv. rewrite Z.eqb_eq. intuition.
  Qed.

  Lemma int_member_cat :
    okt (~ fewer_than size b) (member_cat_spec eq b a) (is_member_cat Z.eqb (fun _ => true) H size a b).
  Proof.
    eapply okt_weaken.
    - apply (is_member_cat_ok Z.eqb (fun _ => true) H (fun x => x) (H size) size a b); auto; try lia.
    - intros T C. apply T. rewrite map_id. eapply fewer_incl; [apply incl_filter|auto].
    - intros r. apply member_cat_spec_iff. intros x y _ _. unfold sk_eqv. rewrite Z.eqb_eq. intuition.
  Qed.
End Ints.

Lemma IsMember_int_ok crc isz ord thr mode hint bad a b : fair ord -> entries hint (Z.of_nat (length b)) < 68719476731 ->
  okt (~ fewer_than (AllocMemory mode false (entries hint (Z.of_nat (length b)))) b) (member_spec eq bad b a)
      (IsMember_int crc isz ord thr mode hint bad a b).
Proof.
  intros Ho Hn. apply int_member; auto using alloc_pos. intros x _. apply int_hash_range. now apply alloc_pos.
Qed.

Lemma IsMemberCategorical_int_ok crc isz mode hint a b : entries hint (Z.of_nat (length b)) < 68719476731 ->
  okt (~ fewer_than (AllocMemory mode false (entries hint (Z.of_nat (length b)))) b) (member_cat_spec eq b a)
      (IsMemberCategorical_int crc isz mode hint a b).
Proof.
  intros Hn. apply int_member_cat; auto using alloc_pos. intros x _. apply int_hash_range. now apply alloc_pos.
Qed.

Lemma IsMemberCategorical_small_ok mode hint a b : entries hint (Z.of_nat (length b)) < 68719476731 ->
  let size := AllocMemory mode false (entries hint (Z.of_nat (length b))) in
  (forall x, In x (a ++ b) -> 0 <= x < size) ->
  okt (~ fewer_than size b) (member_cat_spec eq b a) (IsMemberCategorical_small mode hint a b).
Proof. intros Hn size Hx. apply int_member_cat; auto. now apply alloc_pos. Qed.

(** ** Floats *)

Section Floats.
  Context (w e : Z) (H : Z -> Z -> Z) (size : Z) (a b : list Z) (HH : forall x, In x (a ++ b) -> 0 <= H size x < size) (Hs : 0 < size).
  Context (Hz : one_zero w e (a ++ b)).

  Lemma feq_sym x y : feq_bits w e x y = feq_bits w e y x.
  Proof.
    clear. unfold feq_bits. rewrite (Z.eqb_sym x y).
    destruct (is_nan_bits w e x), (is_nan_bits w e y), (y =? x); cbn; auto. apply Bool.andb_comm.
  Qed.
  Lemma feq_ok x y : feq_bits w e x y = true -> feq_bits w e x x = true /\ feq_bits w e y y = true.
  Proof.
    clear. unfold feq_bits. rewrite !Z.eqb_refl. destruct (is_nan_bits w e x), (is_nan_bits w e y); cbn; auto; discriminate.
  Qed.

  Lemma float_eqv x y : sk_eqv (feq_bits w e) (fun x => feq_bits w e x x) x y <-> feq_bits w e x y = true.
  Proof.
    unfold sk_eqv. rewrite (feq_sym y x). split; [tauto|]. intros E. pose proof (feq_ok _ _ E). tauto.
  Qed.

  Lemma float_heq x y : In x (a ++ b) -> In y b -> feq_bits w e x x = true -> feq_bits w e y y = true ->
    (feq_bits w e y x = true <-> y = x).
  Proof.
    intros Hx Hy Ex Ey. split; [|intros ->; auto]. intros E. apply Hz; auto. apply in_or_app; auto.
  Qed.

  Lemma float_member ord thr bad : fair ord ->
    okt (~ fewer_than size b) (member_spec (fun x y => feq_bits w e x y = true) bad b a)
      (is_member (feq_bits w e) (fun x => feq_bits w e x x) H ord thr size bad a b).
  Proof.
    intros Ho. eapply okt_weaken.
    - apply (is_member_ok (feq_bits w e) (fun x => feq_bits w e x x) H (fun x => x) (H size) size a b); auto; try lia.
      exact float_heq.
    - intros T C. apply T. rewrite map_id. eapply fewer_incl; [apply incl_filter|auto].
    - intros r. apply member_spec_iff. intros x y _ _. apply float_eqv.
  Qed.

  Lemma float_member_cat :
    okt (~ fewer_than size b) (member_cat_spec (fun x y => feq_bits w e x y = true) b a)
      (is_member_cat (feq_bits w e) (fun x => feq_bits w e x x) H size a b).
  Proof.
    eapply okt_weaken.
    - apply (is_member_cat_ok (feq_bits w e) (fun x => feq_bits w e x x) H (fun x => x) (H size) size a b); auto; try lia.
      exact float_heq.
    - intros T C. apply T. rewrite map_id. eapply fewer_incl; [apply incl_filter|auto].
    - intros r. apply member_cat_spec_iff. intros x y _ _. apply float_eqv.
  Qed.
End Floats.

Lemma IsMember_f32_ok ord thr mode hint bad a b : fair ord -> entries hint (Z.of_nat (length b)) < 68719476731 -> one_zero 32 8 (a ++ b) ->
  okt (~ fewer_than (AllocMemory mode true (entries hint (Z.of_nat (length b)))) b)
      (member_spec (fun x y => feq_bits 32 8 x y = true) bad b a) (IsMember_f32 ord thr mode hint bad a b).
Proof. intros Ho Hn Hz. apply float_member; auto using alloc_pos. intros x _. apply f32_range. now apply alloc_pos. Qed.

Lemma IsMember_f64_ok ord thr mode hint bad a b : fair ord -> entries hint (Z.of_nat (length b)) < 68719476731 -> one_zero 64 11 (a ++ b) ->
  okt (~ fewer_than (AllocMemory mode true (entries hint (Z.of_nat (length b)))) b)
      (member_spec (fun x y => feq_bits 64 11 x y = true) bad b a) (IsMember_f64 ord thr mode hint bad a b).
Proof. intros Ho Hn Hz. apply float_member; auto using alloc_pos. intros x _. apply f64_range. now apply alloc_pos. Qed.

(** ** Items of 1 and 2 bytes: each position holds its own value only *)

Section Perfect.
  Context (size : Z).
  Definition perfect (t : list (option (Z * Z))) : Prop := Z.of_nat (length t) = size /\ forall s p, occ t s p -> fst p = s.

  Lemma perfect_probe t x : perfect t -> 0 <= x < size ->
    (exists p, occ t x p /\ probe t (fun p => Some (fst p =? x)) x = Ret (Found x p)) \/
    (zrd t x = Some None /\ probe t (fun p => Some (fst p =? x)) x = Ret (Free x)).
  Proof.
    intros (L & Hp) Hx. unfold probe. destruct (length t) as [|f] eqn:El; [lia|].
    destruct (nth_error_lt t (Z.to_nat x)) as (s & Es); [lia|].
    assert (E : zrd t x = Some s) by (rewrite zrd_some by lia; exact Es).
    cbn [probe_loop]. rewrite E. cbn [lift obind]. destruct s as [p|]; [left|right; auto].
    exists p. split; auto. cbn [lift obind]. rewrite (Hp _ _ E), Z.eqb_refl. reflexivity.
  Qed.

  Lemma perfect_make b : (forall x, In x b -> 0 <= x < size) -> forall t i, perfect t ->
    exists t', make_location (fun i x => (x, i)) (fun x p => Some (fst p =? x)) (own_hash size) (fun _ => true) t i b = Ret t' /\ perfect t'.
  Proof.
    induction b as [|x b IH]; intros Hb t i Hp; [exists t; auto|].
    cbn [make_location]. unfold set_location. unfold own_hash at 1.
    assert (Hx : 0 <= x < size) by (apply Hb; now left).
    destruct (perfect_probe t x Hp Hx) as [(p & Ho & ->)|(E & ->)]; cbn [obind].
    - apply IH; auto. intros y Hy. apply Hb. now right.
    - apply IH; [intros y Hy; apply Hb; now right|]. destruct Hp as (L & Hp).
      split; [now rewrite store_length|]. intros s q Hq.
      apply store_occ in Hq as [(-> & ->)|(_ & Hq)]; [reflexivity|now apply Hp|lia].
  Qed.

  Lemma perfect_new : 0 <= size -> perfect (new_table size).
  Proof.
    intros Hs. split; [unfold new_table; rewrite repeat_length; lia|]. intros s p Hp. apply zrd_inv in Hp as (_ & Hp).
    unfold new_table in Hp. rewrite nth_error_repeat' in Hp. now destruct (Nat.ltb _ _).
  Qed.

  Lemma small_member ord thr bad a b : fair ord -> 0 < size -> (forall x, In x (a ++ b) -> 0 <= x < size) ->
    exists r, (let! t := sk_make Z.eqb (fun _ => true) own_hash size b in
               lookup_rows ord thr CHUNK (get_perfect bad t) a (false, 0)) = Ret r /\ member_spec eq bad b a r.
  Proof.
    intros Ho Hs Hx.
    destruct (perfect_make b) with (t := @new_table (Z * Z) size) (i := 0) as (t & Et & Pt).
    { intros x Hb. apply Hx, in_or_app. auto. } { apply perfect_new; lia. }
    pose proof (sk_make_ok Z.eqb (fun _ => true) own_hash (fun x => x) (own_hash size) size a b) as M.
    unfold sk_make in *. rewrite Et in *. cbn [okt obind] in *.
    assert (M' : minv (fun i x => (x, i)) (fun _ => true) (fun p : Z * Z => fst p) (own_hash size) (fun x : Z => x) b size t (length b)).
    { apply M; auto; try lia. }
    clear M. destruct M' as [L I S A].
    apply (okt_ret False); auto. apply lookup_rows_ok; auto; [unfold CHUNK; lia|].
    intros x Hxa. assert (Rx : 0 <= x < size) by (apply Hx, in_or_app; auto).
    unfold get_perfect. destruct (nth_error_lt t (Z.to_nat x)) as (s & Es); [destruct Pt; lia|].
    assert (E : zrd t x = Some s) by (rewrite zrd_some by lia; exact Es).
    rewrite E. cbn [lift obind]. destruct s as [p|]; cbn.
    - destruct (S p) as (j & y & _ & (Hj & _) & -> & Hf); [apply in_somes; exists x; exact E|].
      assert (y = x) by (apply (proj2 Pt x _ E)). subst y.
      left. exists j, x. repeat split; auto. intros j' y' Lj Hj' C. apply (Hf j' y' Lj); [split; auto|congruence].
    - right. split; auto. intros y Hy C. subst y. apply In_nth_error in Hy as (j & Hy).
      destruct (A j x) as (p & Hp & Ep); [now apply nth_error_Some_lt in Hy|split; auto|].
      apply in_somes in Hp as (s & Hs'). pose proof (proj2 Pt s p Hs') as Ef. unfold occ in Hs'. congruence.
  Qed.
End Perfect.

Lemma IsMember_small_ok isz ord thr bad a b : fair ord -> isz = 1 \/ isz = 2 -> bits (8 * isz) (a ++ b) ->
  exists r, IsMember_small isz ord thr bad a b = Ret r /\ member_spec eq bad b a r.
Proof.
  intros Ho Hi Hb. unfold IsMember_small.
  assert (E : AllocMemory MASK false (if isz =? 1 then 128 else 32768) = 65536) by (destruct Hi as [-> | ->]; vm_compute; reflexivity).
  rewrite E. apply small_member; auto; [lia|]. intros x Hx. specialize (Hb x Hx).
  destruct Hi as [-> | ->]; change (8 * 1) with 8 in *; change (8 * 2) with 16 in *; lia.
Qed.

(** ** Rows of any width *)

Section Rows.
  Context {K : Type} (keq : K -> K -> bool) (Hkeq : forall x y, keq x y = true <-> x = y).

  Lemma mk_member H ord thr size bad a b : fair ord -> 0 <= size -> (forall x, In x (a ++ b) -> 0 <= H size x < size) ->
    okt (~ fewer_than size b) (member_spec eq bad b a) (is_member_mk keq H ord thr size bad a b).
  Proof.
    intros Ho Hs HH. unfold is_member_mk.
    set (key := fun p : Z => zrd b p). set (hk := fun o => match o with Some x => H size x | None => 0 end).
    assert (HH2 : forall j y, used (fun _ : K => true) b j y -> H size y = hk (Some y) /\ 0 <= H size y < size).
    { intros j y (Hj & _). split; auto. apply HH, in_or_app. right. eapply nth_error_In; eauto. }
    assert (Hm : forall (x : K) j y, used (fun _ : K => true) b j y -> exists c, row_match keq b x (Z.of_nat j) = Some c /\ (c = true <-> Some y = Some x)).
    { intros x j y (Hj & _). unfold row_match. rewrite zrd_some, Nat2Z.id, Hj by lia. cbn. exists (keq x y). split; auto.
      rewrite Hkeq. split; congruence. }
    assert (Hkey : forall j y, used (fun _ : K => true) b j y -> key (Z.of_nat j) = Some y).
    { intros j y (Hj & _). unfold key. rewrite zrd_some, Nat2Z.id by lia. auto. }
    assert (TT : forall T : Prop, too_small (fun _ : K => true) (@Some K) b size -> ~ fewer_than size b).
    { intros _ T C. apply T. apply fewer_map. eapply fewer_incl; [apply incl_filter|auto]. }
    eapply okt_bind.
    - eapply okt_weaken; [apply (make_all (fun i _ => i) (row_match keq b) (H size) (fun _ => true) key hk Some b size)| |].
      all: auto. apply (TT True). cbv beta. intros t Mt. exact Mt.
    - intros t Mt. cbv beta in Mt. apply lookup_rows_ok; auto; [unfold CHUNK; lia|]. intros x Hx.
      destruct (lookup_ok (fun (i : Z) (_ : K) => i) (row_match keq b) (H size) (fun _ => true) key hk Some b size) with
        (m1 := row_match keq b) (loc := fun l : Z => l) (H1 := H size) (use1 := fun _ : K => true) (k1 := @Some K)
        (bad := bad) (t := t) (x := x) as (A & _); auto.
      { intros _. split; auto. apply HH, in_or_app. auto. }
      eapply okt_weaken; [exact A|apply (TT True)|]. intros r. apply member_row_iff. intros y _. unfold eqk. intuition congruence.
  Qed.
End Rows.

Lemma bytes_eqb_eq a : forall b, bytes_eqb a b = true <-> a = b.
Proof.
  unfold bytes_eqb. induction a as [|x a IH]; intros [|y b]; cbn; try (split; congruence).
  rewrite !Bool.andb_true_iff, Z.eqb_eq in *. specialize (IH b). rewrite Bool.andb_true_iff in IH.
  split.
  - intros (L & -> & F). f_equal. apply IH. auto.
  - intros E. inversion E; subst. destruct (proj2 IH eq_refl). auto.
Qed.

Lemma MultiKeyIsMember_ok crc ord thr hint bad a b : fair ord -> entries hint (Z.of_nat (length b)) < 68719476731 ->
  okt (~ fewer_than (AllocMemory MASK false (entries hint (Z.of_nat (length b)))) b) (member_spec eq bad b a)
      (MultiKeyIsMember crc ord thr hint bad a b).
Proof.
  intros Ho Hn. pose proof (alloc_pos MASK false _ Hn). apply mk_member; auto using bytes_eqb_eq; [lia|].
  intros x _. apply mask_range. auto.
Qed.

(** The rows made of several key columns are equal exactly when all items are. *)
Lemma app_inj_len {A} (x1 : list A) : forall x2 r1 r2, length x1 = length x2 -> x1 ++ r1 = x2 ++ r2 -> x1 = x2 /\ r1 = r2.
Proof.
  induction x1 as [|a x1 IH]; intros [|b x2] r1 r2 L E; cbn in *; try discriminate; auto.
  inversion E; subst. destruct (IH x2 r1 r2) as (-> & ->); auto.
Qed.

Lemma row_of_inj cols1 : forall cols2 i1 i2 r,
  Forall2 (fun c1 c2 => exists w, (forall x, In x c1 -> length x = w) /\ (forall x, In x c2 -> length x = w)) cols1 cols2 ->
  row_of cols1 i1 = Some r -> row_of cols2 i2 = Some r ->
  Forall2 (fun c1 c2 => nth_error c1 i1 = nth_error c2 i2) cols1 cols2.
Proof.
  induction cols1 as [|c1 cols1 IH]; intros cols2 i1 i2 r F E1 E2; inversion F as [|? c2 ? cols2' (w & W1 & W2) F']; subst; [constructor|].
  cbn in E1, E2. destruct (nth_error c1 i1) as [x1|] eqn:X1; [|discriminate]. destruct (row_of cols1 i1) as [r1|] eqn:R1; [|discriminate].
  destruct (nth_error c2 i2) as [x2|] eqn:X2; [|discriminate]. destruct (row_of cols2' i2) as [r2|] eqn:R2; [|discriminate].
  destruct (app_inj_len x1 x2 r1 r2) as (-> & ->).
  { rewrite (W1 x1), (W2 x2); auto; eapply nth_error_In; eauto. } { congruence. }
  constructor; [congruence|]. eapply IH; eauto.
Qed.

Lemma row_of_same cols1 : forall cols2 i1 i2,
  Forall2 (fun c1 c2 => nth_error c1 i1 = nth_error c2 i2) cols1 cols2 -> row_of cols1 i1 = row_of cols2 i2.
Proof.
  induction cols1 as [|c1 cols1 IH]; intros cols2 i1 i2 F; inversion F as [|? c2 ? cols2' E F']; subst; auto.
  cbn. rewrite E, (IH _ _ _ F'). reflexivity.
Qed.

(** ** Strings *)

Definition zpad (s : list Z) : Prop :=
  forall i, nth_error s i = Some 0 -> forall j c, (i <= j)%nat -> nth_error s j = Some c -> c = 0.

Lemma zpad_tl c s : zpad (c :: s) -> zpad s.
Proof. intros H i Hi j d L Hj. apply (H (S i) Hi (S j)); auto. lia. Qed.

Lemma zpad_zero s : zpad (0 :: s) -> s = repeat 0 (length s).
Proof.
  intros H. assert (A : forall c, In c s -> c = 0).
  { intros c Hc. apply In_nth_error in Hc as (i & E). apply (H 0%nat eq_refl (S i)); [lia|exact E]. }
  clear H. induction s as [|c s IH]; cbn; auto. f_equal; [apply A; now left|]. apply IH. intros d Hd. apply A. now right.
Qed.

Lemma upto0_zeros n : upto0 (repeat 0 n) = [].
Proof. destruct n; reflexivity. Qed.

Lemma zpad_upto0 s : zpad s -> exists k, s = upto0 s ++ repeat 0 k.
Proof.
  induction s as [|c s IH]; intros H; [exists O; auto|]. cbn. destruct (Z.eqb_spec c 0) as [->|Hc].
  - exists (S (length s)). cbn. f_equal. now apply zpad_zero.
  - destruct IH as (k & E); [now apply zpad_tl in H|]. exists k. cbn. congruence.
Qed.

Lemma upto0_app s k : upto0 (s ++ repeat 0 k) = upto0 s.
Proof. induction s as [|c s IH]; cbn; [apply upto0_zeros|]. destruct (c =? 0); congruence. Qed.

Lemma upto0_same s1 s2 : zpad s1 -> zpad s2 -> (upto0 s1 = upto0 s2 <-> same_text s1 s2).
Proof.
  intros H1 H2. split.
  - intros E. destruct (zpad_upto0 _ H1) as (k1 & E1), (zpad_upto0 _ H2) as (k2 & E2).
    destruct (Nat.le_ge_cases k1 k2).
    + exists (k2 - k1)%nat. left. rewrite E1 at 1. rewrite E, <- app_assoc, <- repeat_app.
      replace (k1 + (k2 - k1))%nat with k2 by lia. auto.
    + exists (k1 - k2)%nat. right. rewrite E2 at 1. rewrite <- E, <- app_assoc, <- repeat_app.
      replace (k2 + (k1 - k2))%nat with k1 by lia. auto.
  - intros (k & [<- | <-]); now rewrite upto0_app.
Qed.

Lemma string_match_ok w : forall s1 s2, length s1 = w -> length s2 = w ->
  exists c, STRING_MATCH w s1 s2 = Some c /\ (c = true <-> s1 = s2).
Proof.
  induction w as [|w IH]; intros [|c1 s1] [|c2 s2] L1 L2; try discriminate; [exists true; cbn; tauto|].
  cbn. destruct (Z.eqb_spec c1 c2) as [->|N].
  - destruct (IH s1 s2) as (c & E & Hc); auto. exists c. split; auto. rewrite Hc. split; congruence.
  - exists false. split; auto. split; congruence.
Qed.

Lemma string_match_pad w s1 s2 : length s1 = w -> length s2 = w -> zpad s1 -> zpad s2 ->
  exists c, STRING_MATCH w s1 s2 = Some c /\ (c = true <-> upto0 s1 = upto0 s2).
Proof.
  intros L1 L2 Z1 Z2. destruct (string_match_ok w s1 s2 L1 L2) as (c & E & Hc). exists c. split; auto. rewrite Hc.
  split; [congruence|]. intros U. destruct (zpad_upto0 _ Z1) as (k1 & E1), (zpad_upto0 _ Z2) as (k2 & E2).
  assert (k1 = k2).
  { apply (f_equal (@length Z)) in E1, E2. rewrite app_length, repeat_length in E1, E2. rewrite U in E1. lia. }
  congruence.
Qed.

Lemma string_match2_pad w1 : forall w2 s1 s2, length s1 = w1 -> length s2 = w2 -> w1 <> w2 -> zpad s1 -> zpad s2 ->
  exists c, STRING_MATCH2 w1 w2 s1 s2 = Some c /\ (c = true <-> upto0 s1 = upto0 s2).
Proof.
  induction w1 as [|w1 IH]; intros w2 s1 s2 L1 L2 N Z1 Z2.
  - destruct s1; [|discriminate]. destruct s2 as [|c2 s2]; [cbn in L2; congruence|]. cbn. eexists. split; eauto.
    destruct (Z.eqb_spec c2 0); split; congruence.
  - destruct s1 as [|c1 s1]; [discriminate|]. destruct w2 as [|w2].
    + destruct s2; [|discriminate]. cbn. eexists. split; eauto. destruct (Z.eqb_spec c1 0); split; congruence.
    + destruct s2 as [|c2 s2]; [discriminate|]. cbn in L1, L2 |- *. destruct (Z.eqb_spec c1 c2) as [->|Nc].
      * destruct (IH w2 s1 s2) as (c & E & Hc); eauto using zpad_tl; [lia..|]. exists c. split; auto. rewrite Hc.
        destruct (Z.eqb_spec c2 0) as [->|]; [|split; congruence].
        apply zpad_zero in Z1, Z2. rewrite Z1, Z2, !upto0_zeros. tauto.
      * exists false. split; auto. destruct (Z.eqb_spec c1 0), (Z.eqb_spec c2 0); split; congruence.
Qed.

Lemma IsMemberString_ok hash mode hint bad w1 w2 a b :
  entries hint (Z.of_nat (length b)) < 68719476731 -> padded w1 a -> padded w2 b ->
  okt (~ fewer_than (AllocMemory mode false (entries hint (Z.of_nat (length b)))) b) (member_spec same_text bad b a)
      (IsMemberString hash mode hint bad w1 w2 a b).
Proof.
  intros Hn Pa Pb. unfold IsMemberString. pose proof (alloc_pos mode false _ Hn) as Hs.
  set (size := AllocMemory mode false _) in *. set (H := fun s => mask_hash size (hash (upto0 s))).
  set (key := fun p : Z => option_map upto0 (zrd b p)).
  set (hk := fun o => match o with Some u => mask_hash size (hash u) | None => 0 end).
  set (k := fun s : list Z => Some (upto0 s)).
  assert (HH2 : forall j y, used (fun _ : list Z => true) b j y -> H y = hk (k y) /\ 0 <= H y < size).
  { intros j y (Hj & _). split; auto. apply mask_range. auto. }
  assert (Hm2 : forall i x j y, used (fun _ : list Z => true) b i x -> used (fun _ : list Z => true) b j y -> exists c,
            string_entry_match b (STRING_MATCH w2) x (Z.of_nat j) = Some c /\ (c = true <-> k y = k x)).
  { intros i x j y (Hx & _) (Hj & _). apply nth_error_In in Hx. unfold string_entry_match. rewrite zrd_some, Nat2Z.id, Hj by lia.
    destruct (Pb x Hx) as (Lx & Zx), (Pb y) as (Ly & Zy); [eapply nth_error_In; eauto|].
    destruct (string_match_pad w2 y x) as (c & E & Hc); auto. exists c. split; auto. rewrite Hc. unfold k. split; congruence. }
  assert (Hm1 : forall x, In x a -> forall j y, used (fun _ : list Z => true) b j y -> exists c,
            string_entry_match b (if (w1 =? w2)%nat then STRING_MATCH w1 else STRING_MATCH2 w2 w1) x (Z.of_nat j) = Some c /\ (c = true <-> k y = k x)).
  { intros x Hx j y (Hj & _). unfold string_entry_match. rewrite zrd_some, Nat2Z.id, Hj by lia.
    destruct (Pa x Hx) as (Lx & Zx), (Pb y) as (Ly & Zy); [eapply nth_error_In; eauto|].
    destruct (Nat.eqb_spec w1 w2) as [->|N].
    - destruct (string_match_pad w2 y x) as (c & E & Hc); auto. exists c. split; auto. rewrite Hc. unfold k. split; congruence.
    - destruct (string_match2_pad w2 w1 y x) as (c & E & Hc); auto. exists c. split; auto. rewrite Hc. unfold k. split; congruence. }
  assert (Hkey : forall j y, used (fun _ : list Z => true) b j y -> key (Z.of_nat j) = k y).
  { intros j y (Hj & _). unfold key. rewrite zrd_some, Nat2Z.id, Hj by lia. auto. }
  assert (TT : too_small (fun _ : list Z => true) k b size -> ~ fewer_than size b).
  { intros T C. apply T. apply fewer_map. eapply fewer_incl; [apply incl_filter|auto]. }
  eapply okt_bind.
  - eapply okt_weaken; [apply (make_all (fun i _ => i) (string_entry_match b (STRING_MATCH w2)) H (fun _ => true) key hk k b size)|exact TT|].
    all: auto; try lia. intros t Mt. exact Mt.
  - intros t Mt. cbv beta in Mt. apply all_ret_ok. intros x Hx.
    destruct (lookup_ok (fun (i : Z) (_ : list Z) => i) (string_entry_match b (STRING_MATCH w2)) H (fun _ => true) key hk k b size) with
      (m1 := string_entry_match b (if (w1 =? w2)%nat then STRING_MATCH w1 else STRING_MATCH2 w2 w1)) (loc := fun l : Z => l)
      (H1 := H) (use1 := fun _ : list Z => true) (k1 := k) (bad := bad) (t := t) (x := x) as (A & _); auto; try lia.
    { intros _. split; auto. apply mask_range. auto. }
    eapply okt_weaken; [exact A|exact TT|]. intros r. apply member_row_iff. intros y Hy. unfold eqk.
    rewrite <- (upto0_same x y (proj2 (Pa x Hx)) (proj2 (Pb y Hy))). unfold k. intuition congruence.
Qed.

Lemma all_some_nth {A} (l : list (option A)) : forall r i x, all_some l = Some r -> nth_error r i = Some x -> nth_error l i = Some (Some x).
Proof.
  induction l as [|[a|] l IH]; cbn; intros r i x E Ei; try discriminate.
  - inversion E; subst r. destruct i; discriminate.
  - destruct (all_some l) as [r'|] eqn:El; [|discriminate]. inversion E; subst r. destruct i as [|i]; cbn in *; [congruence|]. eapply IH; eauto.
Qed.

Lemma rotate_row cols n rows i r : RotateArrays cols n = Some rows -> nth_error rows i = Some r -> row_of cols i = Some r.
Proof.
  unfold RotateArrays. intros E Ei. pose proof (all_some_nth _ _ _ _ E Ei) as X. rewrite nth_error_map in X.
  destruct (nth_error (seq 0 n) i) as [k|] eqn:Ek; [|discriminate]. cbn in X.
  assert (k = i). { pose proof (nth_error_Some_lt _ _ _ Ek) as L. rewrite seq_length in L. rewrite nth_error_seq in Ek; auto. destruct (i <? n)%nat; [|discriminate]. inversion Ek; lia. }
  subst k. congruence.
Qed.
