(** Proofs about Sort, SortInPlace, SortInPlaceIndirect and IsSorted. *)
From Coq Require Import Reals.
From Verif Require Import Base Mem MemLemmas Num AllModel AllSpec EaModel EaSpec Ea2Proofs.
From Verif Require Import SortModel SortSpec Sort5Proofs Sort6Proofs Sort8Proofs.
From Verif Require BnModel Par HashProofs.
From Verif Require Import SrModel SrSpec.
Local Open Scope Z_scope.

(** ** Sorting numbers *)
Lemma before_iff x y : COMPARE_LT_float true x y = true <-> before x y.
Proof. unfold COMPARE_LT_float, before. destruct (flt x y), (is_nan x), (is_nan y); cbn; intuition discriminate. Qed.
Lemma in_order_iff r : sorted (COMPARE_LT_float true) r <-> in_order r.
Proof.
  unfold sorted, in_order. split; intros H i j x y L Hx Hy; specialize (H i j x y L Hx Hy).
  - rewrite <- before_iff, H. discriminate.
  - rewrite <- before_iff in H. now destruct (COMPARE_LT_float true y x).
Qed.
(* integers: both orders agree *)
Lemma value_lt_finite d x y : is_finite x = true -> is_finite y = true -> value_lt d x y = COMPARE_LT_float true x y.
Proof. unfold value_lt, COMPARE_LT_float. destruct (BnModel.is_float d), x, y; try discriminate; cbn; auto. now rewrite Bool.orb_false_r. Qed.
Lemma is_float_iff d : 0 <= d <= 13 -> BnModel.is_float d = (11 <=? d).
Proof. unfold BnModel.is_float. lia. Qed.


Lemma SortArray_on {T} (lt cmp cmpf : T -> T -> bool) m (junk a : list T) : strict_weak lt -> (forall x y, In x a -> In y a -> cmp x y = lt x y) ->
  (m = MERGE -> forall x y, In x a -> In y a -> cmpf x y = lt x y) -> Z.of_nat (length a) < 2 ^ 63 -> (length a <= length junk)%nat ->
  exists r, SortArray cmp cmpf m junk a = Some r /\ Permutation a r /\ sorted lt r.
Proof.
  intros sw Hc Hf Hn Hj. assert (C : compares lt (fun x y => Some (cmp x y)) a) by (intros x y Hx Hy; now rewrite Hc). destruct m; cbn [SortArray].
  - apply Sort3Proofs.quicksort_ok; auto.
  - assert (C' : compares lt (fun x y => Some (cmpf x y)) a) by (intros x y Hx Hy; now rewrite Hf).
    destruct (SortProofs.mergesort_ok (fun x y => Some (cmpf x y)) lt sw false junk a [] [] 0 (Z.of_nat (length a))) as (r & E1 & S1); auto.
    rewrite app_nil_l, app_nil_r in E1. exists ([] ++ r ++ []). split; auto. rewrite app_nil_l, app_nil_r. now apply stable_perm_sorted.
  - destruct (Sort2Proofs.heapsort_ok (fun x y => Some (cmp x y)) lt sw [] [] a (Z.of_nat (length a))) as (r & E1 & S1); auto.
    exists r. rewrite app_nil_l, !app_nil_r in E1. cbn [length] in E1. change (Z.of_nat 0) with 0 in E1. rewrite app_nil_l in E1. auto.
Qed.

  Lemma splice_elsewhere {X} (mem r : list X) start : 0 <= start -> start + Z.of_nat (length r) <= Z.of_nat (length mem) ->
    elsewhere start (Z.of_nat (length r)) mem (firstn (Z.to_nat start) mem ++ r ++ skipn (Z.to_nat start + length r) mem).
  Proof.
    intros H0 H1. split.
    - rewrite !app_length, firstn_length, skipn_length. lia.
    - intros i [Hi | Hi].
      + rewrite nth_error_app1 by (rewrite firstn_length; lia). rewrite nth_error_firstn. destruct (Nat.ltb_spec i (Z.to_nat start)); auto. lia.
      + rewrite nth_error_app2 by (rewrite firstn_length; lia). rewrite firstn_length. rewrite nth_error_app2 by lia. rewrite nth_error_skipn. f_equal. lia.
  Qed.
  Lemma splice_vals {X} (zero : X) (a : arg X) r : 0 <= a_len a -> arg_ok (a_len a) a -> gapless a -> length r = Z.to_nat (a_len a) ->
    a_start a + a_len a <= Z.of_nat (length (a_mem a)) /\
    arg_vals zero (in_memory a (firstn (Z.to_nat (a_start a)) (a_mem a) ++ r ++ skipn (Z.to_nat (a_start a) + length r) (a_mem a))) = r.
  Proof.
    intros HN (HL & HS & HI) HC HR.
    assert (E : a_start a + a_len a <= Z.of_nat (length (a_mem a))).
    { destruct (Z.eq_dec (a_len a) 0) as [-> |N]; [lia|]. destruct HC as [C | C]; [|specialize (HI 0); lia]. specialize (HI (a_len a - 1)). rewrite C in HI. lia. }
    split; auto. unfold arg_vals, in_memory. cbn [a_len a_start a_step a_mem]. apply list_ext. intros i. rewrite nth_error_map, nth_error_seq.
    destruct (Nat.ltb_spec i (Z.to_nat (a_len a))) as [L | L]; cbn [option_map].
    - assert (P : a_start a + Z.of_nat (0 + i) * a_step a = a_start a + Z.of_nat i) by (destruct HC as [-> | C]; [lia|]; replace i with 0%nat by lia; lia).
      rewrite P. rewrite app_nth2 by (rewrite firstn_length; lia). rewrite firstn_length. rewrite app_nth1 by lia. symmetry.
      replace (Z.to_nat (a_start a + Z.of_nat i) - _)%nat with i by lia. apply nth_error_nth'. lia.
    - symmetry. apply nth_error_None. lia.
  Qed.

Section Sorting.
  Context (single : fl -> fl) (junk : nat -> fl) (junk_bytes : nat -> Z).

  Lemma sort_values_ok mode d vs : 0 <= d <= 13 -> 1 <= mode <= 3 -> Z.of_nat (length vs) < 2 ^ 63 ->
    (d <= 10 -> Forall (fun v => is_finite v = true) vs) -> (mode = 2 -> 11 <= d -> Forall (fun v => single v = v) vs) ->
    exists r, sort_values single junk mode d vs = Some r /\ Permutation vs r /\ in_order r.
  Proof.
    intros Hd Hm Hn Hf Hs. unfold sort_values. rewrite (proj2 (Z.leb_le 0 d)), (proj2 (Z.leb_le d 13)) by lia. cbn [andb].
    assert (exists m, mode_of mode = Some m /\ (m = MERGE -> mode = 2)) as (m & -> & Em).
    { assert (mode = 1 \/ mode = 2 \/ mode = 3) as [-> | [-> | ->]] by lia; eexists; (split; [reflexivity|]); auto; discriminate. }
    assert (V : forall x y, In x vs -> In y vs -> value_lt d x y = COMPARE_LT_float true x y).
    { intros x y Hx Hy. destruct (Z_le_gt_dec d 10) as [L | L].
      - specialize (Hf L). rewrite Forall_forall in Hf. apply value_lt_finite; auto.
      - unfold value_lt. rewrite is_float_iff by auto. now rewrite (proj2 (Z.leb_le 11 d)) by lia. }
    destruct (SortArray_on (COMPARE_LT_float true) (value_lt d) (merge_lt single d) m (map junk (seq 0 (length vs))) vs) as (r & E & P & S); auto.
    - apply float_sw.
    - intros ME x y Hx Hy. unfold merge_lt. destruct (BnModel.is_float d) eqn:Fl; auto. rewrite is_float_iff in Fl by auto. apply Z.leb_le in Fl.
      specialize (Hs (Em ME) Fl). rewrite Forall_forall in Hs. rewrite (Hs x), (Hs y) by auto. auto.
    - now rewrite map_length, seq_length.
    - exists r. split; auto. split; auto. now apply in_order_iff.
  Qed.

  Lemma mode_int mode : 1 <= mode <= 3 -> BnModel.int32_ok mode = true.
  Proof. intros. unfold BnModel.int32_ok. lia. Qed.

  Lemma sort_call mode a : numeric a -> mode_given single mode a ->
    exists r, SortCall single junk junk_bytes mode (Nums a) = Done (Numbers r) /\ Permutation (arg_vals NaN a) r /\ in_order r.
  Proof.
    intros (Hd & Hn & OK & G & Hf) (Hm & Hs). unfold SortCall. rewrite mode_int by auto. cbn [negb].
    rewrite (read_arg_right NaN (a_len a) a) by (auto; lia). cbn [undef obind].
    destruct (sort_values_ok mode (a_dtype a) (arg_vals NaN a)) as (r & -> & P & S); auto.
    - rewrite (arg_vals_length NaN (a_len a)) by auto. lia.
    - cbn [undef obind]. eauto.
  Qed.

  Lemma inplace_call mode a : numeric a -> mode_given single mode a ->
    exists mem, SortInPlaceCall single junk junk_bytes mode (Nums a) = Done (Numbers mem) /\
      Permutation (arg_vals NaN a) (arg_vals NaN (in_memory a mem)) /\ in_order (arg_vals NaN (in_memory a mem)) /\
      elsewhere (a_start a) (a_len a) (a_mem a) mem /\ SortCall single junk junk_bytes mode (Nums a) = Done (Numbers (arg_vals NaN (in_memory a mem))).
  Proof.
    intros (Hd & Hn & OK & G & Hf) (Hm & Hs). unfold SortInPlaceCall, SortCall. rewrite mode_int by auto. cbn [negb].
    rewrite (read_arg_right NaN (a_len a) a) by (auto; lia). cbn [undef obind].
    pose proof (arg_vals_length NaN (a_len a) a OK) as LV.
    destruct (sort_values_ok mode (a_dtype a) (arg_vals NaN a)) as (r & -> & P & S); auto; [lia|]. cbn [undef obind].
    assert (LR : length r = Z.to_nat (a_len a)) by (rewrite <- LV; symmetry; now apply Permutation_length).
    destruct (splice_vals NaN a r) as [E V]; auto; [lia|]. eexists. split; [reflexivity|]. rewrite V. split; auto. split; auto. split; auto.
    replace (a_len a) with (Z.of_nat (length r)) by lia. apply splice_elsewhere; [|lia]. destruct OK as (_ & HS & _). lia.
  Qed.
End Sorting.

(** ** Keys replaced by their places in an index *)
Lemma invert_ok sort : forall i inverse, Forall (fun s => 0 <= s < Z.of_nat (length inverse)) sort -> NoDup sort ->
  exists r, invert i sort inverse = Some r /\ length r = length inverse /\ (forall k s, nth_error sort k = Some s -> zrd r s = Some (i + Z.of_nat k)) /\
    forall s, ~ In s sort -> zrd r s = zrd inverse s.
Proof.
  induction sort as [|s sort IH]; intros i inverse F ND.
  - exists inverse. repeat split; auto. intros [|k] s; discriminate.
  - inversion F as [|? ? F1 F2]; subst. inversion ND as [|? ? N1 N2]; subst. cbn [invert].
    assert (exists inv', zwr inverse s i = Some inv' /\ length inv' = length inverse /\ zrd inv' s = Some i /\ forall t, t <> s -> zrd inv' t = zrd inverse t) as (inv' & E1 & L1 & R1 & R2).
    { unfold zwr. destruct (Z.leb_spec 0 s); [|lia]. destruct (Z.ltb_spec s (Z.of_nat (length inverse))); [|lia]. cbn [andb].
      eexists. split; [reflexivity|]. split; [apply length_upd|]. split; [apply Sort7Proofs.zrd_upd_eq; lia|]. intros t Ht. apply Sort7Proofs.zrd_upd_neq; lia. }
    rewrite E1. destruct (IH (i + 1) inv') as (r & E2 & L2 & A & B); auto; [now rewrite L1|]. exists r. split; auto. split; [lia|]. split.
    + intros [|k] t Ht; cbn [nth_error] in Ht.
      * injection Ht as <-. rewrite B by auto. rewrite R1. f_equal. lia.
      * rewrite (A k t Ht). f_equal. lia.
    + intros t Ht. rewrite B by (intros C; apply Ht; now right). apply R2. intros ->. apply Ht. now left.
Qed.

Lemma reorders_onto sort k : reorders sort -> 0 <= k < Z.of_nat (length sort) -> In k sort.
Proof.
  intros [ND F] Hk. assert (I : incl (map Z.of_nat (seq 0 (length sort))) sort).
  { apply NoDup_length_incl; auto.
    - now rewrite map_length, seq_length.
    - intros x Hx. rewrite Forall_forall in F. specialize (F x Hx). apply in_map_iff. exists (Z.to_nat x). split; [lia|]. apply in_seq. lia. }
  apply I. apply in_map_iff. exists (Z.to_nat k). split; [lia|]. apply in_seq. lia.
Qed.
Lemma wrap_small b z : b = 4 \/ b = 8 -> 0 <= z < 2 ^ (8 * b - 1) -> wrapT (CI b) z = z.
Proof.
  intros Hb Hz. unfold wrapT. rewrite Z.mod_small; [lia|]. assert (2 ^ (8 * b) = 2 * 2 ^ (8 * b - 1)) by (rewrite <- Z.pow_succ_r by lia; f_equal; lia). lia.
Qed.
Lemma Forall2_len {A B} (R : A -> B -> Prop) l r : Forall2 R l r -> length l = length r.
Proof. induction 1; cbn; auto. Qed.
Lemma indirect_call junk key sort : key_types (a_dtype key) (a_dtype sort) -> whole_array key -> whole_array sort ->
  (a_dtype key = 5 -> a_len key < 2 ^ 31 /\ a_len sort < 2 ^ 31) ->
  reorders (arg_vals 0 sort) -> Forall (fun k => 0 <= k < a_len sort) (arg_vals 0 key) ->
  exists mem, SortInPlaceIndirectCall junk key sort = Done mem /\ elsewhere (a_start key) (a_len key) (a_mem key) mem /\
    Forall2 (fun k p => zrd (arg_vals 0 sort) p = Some k) (arg_vals 0 key) (arg_vals 0 (in_memory key mem)).
Proof.
  intros HT (Hn & OK & G) (Hn2 & OK2 & G2) HS HR HK. unfold SortInPlaceIndirectCall.
  pose proof (arg_vals_length 0 (a_len key) key OK) as LK. pose proof (arg_vals_length 0 (a_len sort) sort OK2) as LS.
  assert (exists b, key_bytes (a_dtype key) (a_dtype sort) = Some b /\ (b = 4 /\ a_dtype key = 5 \/ b = 8 /\ a_dtype key = 7 /\ a_dtype sort = 7)) as (b & -> & Hb).
  { unfold key_bytes. destruct HT as [[-> ->] | [[-> ->] | [-> ->]]]; cbn; eexists; (split; [reflexivity|]); lia. }
  rewrite (read_arg_right 0 (a_len key) key), (read_arg_right 0 (a_len sort) sort) by (auto; lia). cbn [undef obind].
  assert (((b =? 4) && (2 ^ 31 <=? a_len key)) || ((a_dtype sort =? 5) && (2 ^ 31 <=? a_len sort)) = false) as -> by lia.
  set (ks := arg_vals 0 key) in *. set (ss := arg_vals 0 sort) in *. destruct HR as [ND F].
  destruct (invert_ok ss 0 (map junk (seq 0 (length ss)))) as (inv & -> & LI & A & _); auto; [now rewrite map_length, seq_length|]. cbn [undef obind].
  assert (Q : forall k, In k ks -> exists p, zrd inv k = Some p /\ 0 <= p < a_len sort /\ zrd ss p = Some k).
  { intros k Hk. rewrite Forall_forall in HK. specialize (HK k Hk). assert (In k ss) as IK by (apply reorders_onto; [split; auto|lia]).
    apply In_nth_error in IK as (p & Ep). exists (Z.of_nat p). rewrite (A p k Ep). pose proof (nth_error_Some_lt _ _ _ Ep). split; [reflexivity|]. split; [lia|].
    unfold zrd. rewrite (proj2 (Z.leb_le 0 (Z.of_nat p))) by lia. now rewrite Nat2Z.id. }
  assert (exists r, Par.all_some (map (zrd inv) ks) = Some r /\ Forall2 (fun k p => 0 <= p < a_len sort /\ zrd ss p = Some k) ks r) as (r & -> & FR).
  { clearbody ks. clear -Q. induction ks as [|k ks IH].
    - exists []. split; auto.
    - destruct (Q k (or_introl eq_refl)) as (p & Ep & Hp). destruct IH as (r & E & FR); [intros; apply Q; now right|]. exists (p :: r). cbn [map Par.all_some]. rewrite Ep, E. auto. }
  cbn [undef obind].
  assert (map (wrapT (CI b)) r = r) as ->.
  { rewrite <- (map_id r) at 2. apply map_ext_in. intros p Hp. apply In_nth_error in Hp as (i & Ei).
    assert (exists k, nth_error ks i = Some k) as (k & Ek) by (apply nth_error_lt; rewrite (Forall2_len _ _ _ FR); now apply nth_error_Some_lt in Ei).
    pose proof (HashProofs.Forall2_nth _ _ _ FR i k p Ek Ei) as (Hp & _). apply wrap_small; [lia|].
    destruct Hb as [[-> D] | [-> _]]; [specialize (HS D); change (8 * 4 - 1) with 31|change (8 * 8 - 1) with 63]; lia. }
  pose proof (Forall2_len _ _ _ FR) as LR.
  destruct (splice_vals 0 key r) as [E V]; auto; [lia|lia|]. eexists. split; [reflexivity|]. split.
  - replace (a_len key) with (Z.of_nat (length r)) by lia. apply splice_elsewhere; [|lia]. destruct OK as (_ & HS' & _). lia.
  - rewrite V. eapply HashProofs.Forall2_impl_in; [|exact FR]. now intros k p _ [_ ?].
Qed.

(** ** IsSorted *)
Section Ext.
  Context {T : Type} (ge ge' : T -> T -> bool) (nan : T -> bool) (a : list T).
  Context (E : forall x y, In x a -> In y a -> ge x y = ge' x y).
  Lemma sorted_scan_ext s n : sorted_scan ge (skipn s a) n = sorted_scan ge' (skipn s a) n.
  Proof.
    induction n as [|n IH]; auto. cbn [sorted_scan]. destruct (nth_error (skipn s a) (S n)) as [x|] eqn:X; auto. destruct (nth_error (skipn s a) n) as [y|] eqn:Y; auto.
    rewrite nth_error_skipn in X, Y. apply nth_error_In in X, Y. rewrite (E x y X Y), IH. reflexivity.
  Qed.
  Lemma IsSorted_ext ord threaded seen : IsSorted ge nan ord threaded seen a = IsSorted ge' nan ord threaded seen a.
  Proof.
    unfold IsSorted. generalize (ord (nat * nat)%type (chunk_calls threaded CHUNK (length a))). intros cs.
    assert (C : forall f c, is_sorted_chunk ge nan a f c = is_sorted_chunk ge' nan a f c).
    { intros f c. unfold is_sorted_chunk, IsSortedSeg. destruct f; auto. destruct (if (fst c =? 0)%nat then c else _) as [s l]. destruct l as [|n]; auto.
      destruct (nan_scan nan (skipn s a) n) as [i|]; auto. now rewrite sorted_scan_ext. }
    generalize 0%nat true. induction cs as [|c cs IH]; intros k f; auto. cbn [is_sorted_chunks]. rewrite C. destruct (is_sorted_chunk ge' nan a (f || seen k) c); auto.
  Qed.
End Ext.
(* items compared by an order *)
Lemma IsSorted_by {T} (lt : T -> T -> bool) (p : T -> bool) ord threaded seen a : fair ord -> sw_on (fun x => p x = true) lt -> Forall (fun x => p x = true) a ->
  exists b, IsSorted (fun x y => negb (lt x y)) (fun _ => false) ord threaded seen a = Some b /\ (b = true <-> sorted lt a).
Proof.
  intros Ho [SA ST] Ha. rewrite Forall_forall in Ha.
  rewrite (IsSorted_ext _ (fun x y => p x && p y && negb (lt x y)) (fun _ => false) a) by (intros x y Hx Hy; now rewrite (Ha x), (Ha y)).
  destruct (IsSorted_ok (fun x y => p x && p y && negb (lt x y)) (fun _ => false)) with (ord := ord) (threaded := threaded) (seen := seen) (a := a) as (b & E & H); auto.
  { intros x y z H1 H2. apply andb_prop in H1 as [H1 N1], H2 as [H2 N2]. apply andb_prop in H1 as [Lx Ly], H2 as [Ly' Lz].
    rewrite Lx, Lz. cbn [andb]. apply Bool.negb_true_iff in N1, N2. apply Bool.negb_true_iff.
    destruct (lt x z) eqn:X; auto. destruct (ST x y z Lx Ly Lz X); congruence. }
  exists b. split; auto. rewrite H. split.
  - intros (l & r & -> & F & S) i j x y Hij Hi Hj. destruct r as [|z r]; [|inversion F; discriminate]. rewrite app_nil_r in *. specialize (S i j x y Hij Hi Hj).
    apply andb_prop in S as [_ S]. now apply Bool.negb_true_iff.
  - intros S. exists a, []. split; [now rewrite app_nil_r|]. split; auto. intros i j x y Hij Hi Hj. specialize (S i j x y Hij Hi Hj).
    rewrite (Ha x), (Ha y), S by (eapply nth_error_In; eauto). auto.
Qed.

Lemma no_gaps {X} (a : arg X) : gapless a -> (1 <? a_len a) && negb (a_step a =? 1) = false.
Proof. unfold gapless. lia. Qed.
Lemma ascending_float ord threaded seen (a : list fl) : fair ord ->
  exists b, IsSorted (fun x y => fle y x) is_nan ord threaded seen a = Some b /\ (b = true <-> ascending a).
Proof.
  intros. apply IsSorted_ok; auto.
  - intros [| |x|] [| |y|]; cbn; auto; discriminate.
  - intros [| |x|] [| |y|] [| |z|]; cbn; auto; try discriminate. unfold fle, flt, feq; cbn. rewrite !Bool.orb_true_iff. lia.
Qed.
Lemma nan_scan_ext {T} (f g : T -> bool) l : (forall x, In x l -> f x = g x) -> forall n, nan_scan f l n = nan_scan g l n.
Proof. intros E. induction n as [|n IH]; auto. cbn [nan_scan]. destruct (nth_error l (S n)) as [x|] eqn:X; auto. apply nth_error_In in X. now rewrite (E x X), IH. Qed.
Lemma IsSorted_nan_ext {T} (ge : T -> T -> bool) f g ord threaded seen a : (forall x, In x a -> f x = g x) -> IsSorted ge f ord threaded seen a = IsSorted ge g ord threaded seen a.
Proof.
  intros E. unfold IsSorted. generalize (ord (nat * nat)%type (chunk_calls threaded CHUNK (length a))). intros cs.
  assert (C : forall b c, is_sorted_chunk ge f a b c = is_sorted_chunk ge g a b c).
  { intros b c. unfold is_sorted_chunk, IsSortedSeg. destruct b; auto. destruct (if (fst c =? 0)%nat then c else _) as [s l]. destruct l as [|n]; auto.
    rewrite (nan_scan_ext f g); auto. intros x Hx. apply E. rewrite <- (firstn_skipn s a). apply in_app_iff. now right. }
  generalize 0%nat true. induction cs as [|c cs IH]; intros k b; auto. cbn [is_sorted_chunks]. rewrite C. destruct (is_sorted_chunk ge g a (b || seen k) c); auto.
Qed.
Lemma numbers_call ord threaded seen a : fair ord -> numeric a ->
  exists b, IsSortedCall ord threaded seen (Nums a) = Done b /\ (b = true <-> ascending (arg_vals NaN a)).
Proof.
  intros Ho (Hd & Hn & OK & G & Hf). unfold IsSortedCall. rewrite no_gaps by auto. rewrite (proj2 (Z.leb_le 0 (a_dtype a))), (proj2 (Z.leb_le (a_dtype a) 13)) by lia. cbn [andb negb].
  rewrite (read_arg_right NaN (a_len a) a) by (auto; lia). cbn [undef obind].
  destruct (ascending_float ord threaded seen (arg_vals NaN a) Ho) as (b & E & H). exists b. split; auto.
  rewrite is_float_iff by auto. destruct (Z.leb_spec 11 (a_dtype a)) as [L | L]; [now rewrite E|].
  rewrite (IsSorted_nan_ext _ (fun _ => false) is_nan); [now rewrite E|]. intros x Hx. specialize (Hf ltac:(lia)). rewrite Forall_forall in Hf. specialize (Hf x Hx). now destruct x.
Qed.

(* text *)
Lemma STRING_LT_iff s t : length s = length t -> STRING_LT true s t = true <-> exists i, (i < length s)%nat /\ nth i s 0 < nth i t 0 /\ forall j, (j < i)%nat -> nth j s 0 = nth j t 0.
Proof.
  revert t. induction s as [|c s IH]; intros [|d t] L; try discriminate.
  - cbn. split; [discriminate|]. intros (i & H & _). lia.
  - cbn [STRING_LT length]. injection L as L. destruct (Z.eqb_spec c d) as [-> | N].
    + rewrite IH by auto. split.
      * intros (i & Hi & A & B). exists (S i). split; [lia|]. split; [exact A|]. intros [|j] Hj; [reflexivity|]. cbn [nth]. apply B. lia.
      * intros ([|i] & Hi & A & B); [cbn [nth] in A; lia|]. exists i. split; [lia|]. split; [exact A|]. intros j Hj. exact (B (S j) ltac:(lia)).
    + unfold COMPARE_LT_int. split.
      * intros H. exists 0%nat. split; [lia|]. split; [cbn [nth]; lia|]. intros j Hj. lia.
      * intros ([|i] & Hi & A & B); [cbn [nth] in A; lia|]. specialize (B 0%nat ltac:(lia)). cbn [nth] in B. contradiction.
Qed.
Lemma text_less_1 size s t : length s = Z.to_nat size -> length t = Z.to_nat size -> STRING_LT true s t = true <-> text_less 1 size s t.
Proof.
  intros Ls Lt. assert (C : forall s i, char_at 1 s i = nth i s 0). { intros u i. unfold char_at. cbn [seq fold_right]. rewrite Nat.mul_1_l, Nat.add_0_r. lia. }
  rewrite STRING_LT_iff by lia. unfold text_less. rewrite Ls. split; intros (i & A & B & D); exists i; rewrite !C in *; (split; [lia|split; [auto|]]); intros j Hj; specialize (D j Hj); rewrite !C in *; auto.
Qed.
Lemma code_points_length n : forall s, length s = (4 * n)%nat -> length (code_points s) = n.
Proof.
  induction n as [|n IH]; intros s L.
  - destruct s; auto. discriminate.
  - destruct s as [|a [|b [|c [|d s]]]]; cbn [length] in L; try lia. cbn [code_points length]. f_equal. apply IH. lia.
Qed.
Lemma code_points_nth n : forall s i, length s = (4 * n)%nat -> (i < n)%nat -> nth i (code_points s) 0 = char_at 4 s i.
Proof.
  induction n as [|n IH]; intros s i L Hi; [lia|].
  destruct s as [|a [|b [|c [|d s]]]]; cbn [length] in L; try lia. cbn [code_points]. destruct i as [|i].
  - reflexivity.
  - cbn [nth]. rewrite IH by lia. unfold char_at. cbn [seq fold_right]. replace (4 * S i)%nat with (S (S (S (S (4 * i))))) by lia. cbn [Nat.add nth]. reflexivity.
Qed.
Lemma text_less_4 n s t : length s = (4 * n)%nat -> length t = (4 * n)%nat ->
  STRING_LT true (code_points s) (code_points t) = true <-> text_less 4 (4 * Z.of_nat n) s t.
Proof.
  intros Ls Lt. rewrite STRING_LT_iff by (rewrite !(code_points_length n); auto). rewrite (code_points_length n) by auto. unfold text_less.
  split; intros (i & A & B & D); exists i.
  - rewrite !(code_points_nth n) in B by lia. split; [lia|]. split; auto. intros j Hj. specialize (D j Hj). now rewrite !(code_points_nth n) in D by lia.
  - rewrite !(code_points_nth n) by lia. split; [lia|]. split; auto. intros j Hj. specialize (D j Hj). now rewrite !(code_points_nth n) by lia.
Qed.

Lemma texts_call ord threaded seen size a : fair ord -> texts size a -> a_dtype a = 18 \/ a_dtype a = 19 /\ (4 | size) ->
  exists b, IsSortedCall ord threaded seen (Texts size a) = Done b /\
    (b = true <-> forall i j x y, (i < j)%nat -> nth_error (arg_vals [] a) i = Some x -> nth_error (arg_vals [] a) j = Some y -> ~ text_less (width_of (a_dtype a)) size y x).
Proof.
  intros Ho (Hs & Hn & OK & G & Hf) HD. unfold IsSortedCall. rewrite no_gaps by auto. rewrite (read_arg_right [] (a_len a) a) by (auto; lia). cbn [undef obind].
  assert (L : Forall (fun s => length s = Z.to_nat size) (arg_vals [] a)) by (eapply Forall_impl; [|exact Hf]; now intros s [? _]).
  assert (W : forall (lt : list Z -> list Z -> bool) w, sw_on (fun s => length s = Z.to_nat size) lt ->
    (forall s t, length s = Z.to_nat size -> length t = Z.to_nat size -> lt s t = true <-> text_less w size s t) ->
    exists b, undef (IsSorted (fun x y => negb (lt x y)) (fun _ => false) ord threaded seen (arg_vals [] a)) = Done b /\
      (b = true <-> forall i j x y, (i < j)%nat -> nth_error (arg_vals [] a) i = Some x -> nth_error (arg_vals [] a) j = Some y -> ~ text_less w size y x)).
  { intros lt w SW HL. destruct (IsSorted_by lt (fun s => (length s =? Z.to_nat size)%nat) ord threaded seen (arg_vals [] a)) as (b & E & H); auto.
    - destruct SW as [SA ST]. split; [intros x y Hx Hy; apply Nat.eqb_eq in Hx, Hy; auto|]. intros x y z Hx Hy Hz. apply Nat.eqb_eq in Hx, Hy, Hz. auto.
    - eapply Forall_impl; [|exact L]. intros s. now apply Nat.eqb_eq.
    - exists b. rewrite E. split; auto. rewrite H. unfold sorted. rewrite Forall_forall in L.
      split; intros S i j x y Hij Hi Hj; specialize (S i j x y Hij Hi Hj); pose proof (L x (nth_error_In _ _ Hi)); pose proof (L y (nth_error_In _ _ Hj)).
      + rewrite <- HL, S by auto. discriminate.
      + rewrite <- HL in S by auto. now destruct (lt y x). }
  destruct HD as [D | [D (k & Dk)]]; rewrite D.
  - apply W; [apply string_sw|]. intros s t Ls Lt. now apply text_less_1.
  - apply W.
    + pose proof (string_sw true (Z.to_nat k)) as [SA ST].
      assert (C : forall s, length s = Z.to_nat size -> length (code_points s) = Z.to_nat k) by (intros; apply code_points_length; lia).
      unfold UNICODE_LT. split; [intros x y Hx Hy; apply SA; auto|]. intros x y z Hx Hy Hz. apply ST; auto.
    + intros s t Ls Lt. replace size with (4 * Z.of_nat (Z.to_nat k)) by lia. apply text_less_4; lia.
Qed.

Lemma refused_call ord threaded seen x : not_accepted x -> IsSortedCall ord threaded seen x = Error.
Proof.
  destruct x as [a | size a]; cbn [not_accepted IsSortedCall]; intros [[H1 H2] | H].
  - assert ((1 <? a_len a) && negb (a_step a =? 1) = true) as -> by lia. reflexivity.
  - destruct ((1 <? a_len a) && negb (a_step a =? 1)); auto. assert (negb ((0 <=? a_dtype a) && (a_dtype a <=? 13)) = true) as -> by lia. reflexivity.
  - assert ((1 <? a_len a) && negb (a_step a =? 1) = true) as -> by lia. reflexivity.
  - destruct ((1 <? a_len a) && negb (a_step a =? 1)); auto.
    destruct (a_dtype a) as [|q|q]; auto. do 5 (try (destruct q as [q|q|]); try reflexivity; try lia).
Qed.

(* what is in order is sorted *)
Lemma in_order_ascending r : in_order r -> ascending r.
Proof.
  intros H. apply all_ok_spec.
  - intros [| |x|] [| |y|]; cbn; auto; discriminate.
  - intros [| |x|] [| |y|] [| |z|]; cbn; auto; try discriminate. unfold fle, flt, feq; cbn. rewrite !Bool.orb_true_iff. lia.
  - intros j Hj x y Hx Hy. specialize (H (j - 1)%nat j x y ltac:(lia) Hx Hy). destruct (is_nan y) eqn:Ny; auto. left.
    destruct (is_nan x) eqn:Nx; [exfalso; apply H; now right|]. rewrite fle_not_lt by auto. destruct (flt y x) eqn:L; auto. exfalso. apply H. now left.
Qed.

(** ** Byte strings of one character, sorting and asking *)
Lemma signed_sw : strict_weak char_lt.
Proof. split; unfold char_lt, COMPARE_LT_int; intros; lia. Qed.
Lemma chars_call single junk junk_bytes mode a : 1 <= mode <= 3 -> a_dtype a = 18 -> texts 1 a -> Forall (Forall (fun b => b < 128)) (arg_vals [] a) ->
  exists r, SortCall single junk junk_bytes mode (Texts 1 a) = Done (Bytes r) /\ Permutation (concat (arg_vals [] a)) r /\
    forall i j x y, (i < j)%nat -> nth_error r i = Some x -> nth_error r j = Some y -> x <= y.
Proof.
  intros Hm D (_ & Hn & OK & G & Hf) HA. unfold SortCall. rewrite mode_int by auto. cbn [negb]. change (1 <? 1) with false. cbn [andb].
  rewrite (read_arg_right [] (a_len a) a) by (auto; lia). cbn [undef obind]. rewrite D. unfold sort_bytes. change (18 =? 18) with true. cbn iota.
  pose proof (arg_vals_length [] (a_len a) a OK) as LV. set (vs := arg_vals [] a) in *.
  assert (LC : length (concat vs) = length vs).
  { clearbody vs. clear -Hf. induction Hf as [|s l [L _] _ IH]; auto. cbn [concat length]. rewrite app_length, IH, L. reflexivity. }
  assert (B : forall b, In b (concat vs) -> 0 <= b < 128).
  { intros b Hb. apply in_concat in Hb as (s & Hs & Hb). rewrite Forall_forall in Hf, HA. destruct (Hf s Hs) as [_ F]. specialize (HA s Hs). rewrite Forall_forall in F, HA.
    specialize (F b Hb). specialize (HA b Hb). lia. }
  rewrite firstn_all2, skipn_all2 by lia.
  assert (exists m, mode_of mode = Some m) as (m & ->) by (assert (mode = 1 \/ mode = 2 \/ mode = 3) as [-> | [-> | ->]] by lia; eexists; reflexivity).
  destruct (SortArray_on char_lt char_lt char_lt m (map junk_bytes (seq 0 (Z.to_nat (a_len a)))) (concat vs)) as (r & -> & P & S); auto.
  - apply signed_sw.
  - lia.
  - rewrite map_length, seq_length. lia.
  - cbn [undef obind]. rewrite app_nil_r. exists r. split; auto. split; auto. intros i j x y L Hx Hy. specialize (S i j x y L Hx Hy).
    assert (0 <= x < 128) by (apply B, (Permutation_in x (Permutation_sym P)); eapply nth_error_In; eauto).
    assert (0 <= y < 128) by (apply B, (Permutation_in y (Permutation_sym P)); eapply nth_error_In; eauto).
    unfold char_lt, COMPARE_LT_int, signed in S. destruct (Z.ltb_spec x 128), (Z.ltb_spec y 128); lia.
Qed.

Lemma sorted_after single junk junk_bytes ord threaded seen mode a r : fair ord -> numeric a -> mode_given single mode a ->
  SortCall single junk junk_bytes mode (Nums a) = Done (Numbers r) -> IsSortedCall ord threaded seen (Nums (mkArg (a_dtype a) r 0 1 (a_len a))) = Done true.
Proof.
  intros Ho HN HM E. destruct (sort_call single junk junk_bytes mode a HN HM) as (r' & E' & P & S). rewrite E in E'. injection E' as <-.
  destruct HN as (Hd & Hn & OK & G & Hf). pose proof (arg_vals_length NaN (a_len a) a OK) as LV. pose proof (Permutation_length P) as LP.
  set (b := mkArg (a_dtype a) r 0 1 (a_len a)).
  assert (OKb : arg_ok (a_len b) b) by (unfold arg_ok; cbn [b a_len a_start a_mem a_step]; split; [lia|]; split; [lia|intros; lia]).
  assert (Gb : gapless b) by (left; reflexivity).
  assert (V : arg_vals NaN b = r).
  { pose proof (read_arg_right NaN (a_len b) b ltac:(cbn [b a_len]; lia) OKb Gb) as R. unfold read_arg in R. cbn [b a_len a_start a_mem] in R.
    rewrite (proj2 (Z.leb_le (0 + a_len a) (Z.of_nat (length r)))) in R by lia. change (0 <=? 0) with true in R. cbn [andb] in R. injection R as R. fold b in R. rewrite <- R.
    cbn [Z.to_nat skipn]. apply firstn_all2. lia. }
  assert (NB : numeric b).
  { split; [exact Hd|]. split; [exact Hn|]. split; auto. split; auto. intros L. rewrite V. apply (Permutation_Forall P). now apply Hf. }
  destruct (numbers_call ord threaded seen b Ho NB) as (x & Ex & Hx). rewrite V in Hx. rewrite Ex. f_equal. apply Hx. now apply in_order_ascending.
Qed.
