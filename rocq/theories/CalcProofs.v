(** Bit counts, CRC-64, invalid-passing minimum and maximum, time windows. *)
From Verif Require Import Num Base Mem MemLemmas Par CalcModel CalcSpec.
Local Open Scope Z_scope.

(** ** Bits *)

Lemma countb_map {A B} (f : B -> bool) (g : A -> B) l : countb f (map g l) = countb (fun x => f (g x)) l.
Proof. induction l; cbn; auto. Qed.
Lemma countb_ext_in {A} (f g : A -> bool) l : (forall x, In x l -> f x = g x) -> countb f l = countb g l.
Proof. induction l as [|a l IH]; cbn; intros H; auto. rewrite (H a), IH; auto. Qed.

Lemma seq_from n : forall s, seq s n = map (fun i => (s + i)%nat) (seq 0 n).
Proof.
  induction n as [|n IH]; intros s; auto. cbn [seq map]. rewrite Nat.add_0_r. f_equal. rewrite IH, (IH 1%nat), map_map. apply map_ext. intros. lia.
Qed.

Lemma ones_mod w n : 0 <= w -> ones w (n mod 2 ^ w) = ones w n.
Proof.
  intros Hw. unfold ones. f_equal. apply countb_ext_in. intros i Hi. apply in_seq in Hi. rewrite Z.mod_pow2_bits_low; auto. lia.
Qed.

Lemma ones_split a b n : 0 <= a -> 0 <= b -> ones (a + b) n = ones a n + ones b (Z.shiftr n a).
Proof.
  intros Ha Hb. unfold ones. rewrite Z2Nat.inj_add, seq_app, countb_app, Nat2Z.inj_add by lia. f_equal. f_equal.
  cbn [Nat.add]. rewrite seq_from, countb_map. apply countb_ext_in. intros i _.
  rewrite Z.shiftr_spec by lia. f_equal. lia.
Qed.

Lemma nibble_ok n : 0 <= n < 16 -> nibble n = Some (ones 4 n).
Proof.
  intros H. assert (E : forallb (fun i => match nibble (Z.of_nat i) with Some x => x =? ones 4 (Z.of_nat i) | None => false end) (seq 0 16) = true) by (vm_compute; reflexivity).
  rewrite forallb_forall in E. specialize (E (Z.to_nat n)). rewrite Z2Nat.id in E by lia.
  destruct (nibble n) as [x|]; [|discriminate E; apply in_seq; lia]. f_equal. apply Z.eqb_eq, E. apply in_seq. lia.
Qed.

Lemma ones_land4 n : ones 4 (Z.land n 15) = ones 4 n.
Proof. change 15 with (Z.ones 4). rewrite Z.land_ones by lia. now apply ones_mod. Qed.
Lemma land15 n : 0 <= Z.land n 15 < 16.
Proof. change 15 with (Z.ones 4). rewrite Z.land_ones by lia. apply Z.mod_pos_bound. reflexivity. Qed.

Lemma shiftr_range n k b : 0 <= k -> 0 <= b -> 0 <= n < 2 ^ (k + b) -> 0 <= Z.shiftr n k < 2 ^ b.
Proof. intros Hk Hb H. rewrite Z.shiftr_div_pow2 by auto. rewrite Z.pow_add_r in H by auto. split; [apply Z.div_pos; lia|apply Z.div_lt_upper_bound; lia]. Qed.

Lemma bit_count_ok isz n : In isz [1; 2; 4; 8] -> 0 <= n < 2 ^ (8 * isz) -> bit_count isz n = Some (ones (8 * isz) n).
Proof.
  intros Hi Hn. cbn in Hi. destruct Hi as [<-|[<-|[<-|[<-|[]]]]]; unfold bit_count; cbn [Z.eqb Pos.eqb].
  - rewrite (nibble_ok (Z.shiftr n 4)) by (apply (shiftr_range n 4 4); lia). rewrite nibble_ok by apply land15. cbn [add4].
    change (8 * 1) with (4 + 4). rewrite ones_split, ones_land4 by lia. f_equal. lia.
  - rewrite (nibble_ok (Z.shiftr n 12)) by (apply (shiftr_range n 12 4); lia). rewrite !nibble_ok by apply land15. cbn [add4].
    change (8 * 2) with (4 + (4 + (4 + 4))). rewrite !ones_split, !ones_land4 by lia. rewrite !Z.shiftr_shiftr by lia. cbn [Z.add Pos.add Pos.succ Pos.add_carry]. f_equal. lia.
  - reflexivity.
  - reflexivity.
Qed.

Lemma BitCount_ok isz items : In isz [1; 2; 4; 8] -> BitCount false isz items = Some (map (ones (8 * isz)) items).
Proof.
  intros Hi. unfold BitCount. apply all_some_map. intros n _. rewrite bit_count_ok; auto.
  - f_equal. apply ones_mod. cbn in Hi. lia.
  - apply Z.mod_pos_bound. apply Z.pow_pos_nonneg; [lia|]. cbn in Hi. lia.
Qed.

Lemma BitCount_bool_ok items : (forall n, In n items -> n = 0 \/ n = 1) -> BitCount true 1 items = Some (map (ones 8) items).
Proof.
  intros H. unfold BitCount. f_equal. apply map_ext_in. intros n Hn. destruct (H n Hn) as [-> | ->]; reflexivity.
Qed.

(** ** Minimum and maximum *)

Lemma fmin_nan x y : is_nan (fmin_pass x y) = is_nan x || is_nan y.
Proof. destruct x, y; unfold fmin_pass; cbn; auto. destruct (z <? z0); auto. Qed.
Lemma fmin_val x y : is_nan x = false -> is_nan y = false -> fmin_pass x y = if flt x y then x else y.
Proof. unfold fmin_pass, fmax_pass. intros -> _. reflexivity. Qed.
Lemma fmax_nan x y : is_nan (fmax_pass x y) = is_nan x || is_nan y.
Proof. destruct x, y; unfold fmax_pass; cbn; auto. destruct (z0 <? z); auto. Qed.
Lemma fmax_val x y : is_nan x = false -> is_nan y = false -> fmax_pass x y = if flt y x then x else y.
Proof. unfold fmin_pass, fmax_pass. intros -> _. reflexivity. Qed.

Ltac flcases := repeat match goal with |- context [?a <? ?b] => destruct (Z.ltb_spec a b) | H : context [?a <? ?b] |- _ => destruct (Z.ltb_spec a b) end.
Lemma fmin_comm x y : fmin_pass x y = fmin_pass y x.
Proof. destruct x, y; unfold fmin_pass, fmax_pass; cbn; auto. flcases; auto; f_equal; lia. Qed.
Lemma fmin_assoc x y z : fmin_pass x (fmin_pass y z) = fmin_pass (fmin_pass x y) z.
Proof. destruct x, y, z; unfold fmin_pass; cbn; auto; flcases; cbn; auto; flcases; cbn; auto; f_equal; lia. Qed.
Lemma fmax_comm x y : fmax_pass x y = fmax_pass y x.
Proof. destruct x, y; unfold fmin_pass, fmax_pass; cbn; auto. flcases; auto; f_equal; lia. Qed.
Lemma fmax_assoc x y z : fmax_pass x (fmax_pass y z) = fmax_pass (fmax_pass x y) z.
Proof. destruct x, y, z; unfold fmax_pass; cbn; auto; flcases; cbn; auto; flcases; cbn; auto; f_equal; lia. Qed.

Lemma imin_spec lo inv x y : lo <= x -> lo <= y -> lo <= inv ->
  imin_pass lo inv x y = if (x =? inv) || (y =? inv) then inv else Z.min x y.
Proof. unfold imin_pass. intros. destruct (Z.eqb_spec inv lo), (Z.eqb_spec x inv), (Z.eqb_spec y inv); cbn; lia. Qed.
Lemma imax_spec hi inv x y : x <= hi -> y <= hi -> inv <= hi ->
  imax_pass hi inv x y = if (x =? inv) || (y =? inv) then inv else Z.max x y.
Proof. unfold imax_pass. intros. destruct (Z.eqb_spec inv hi), (Z.eqb_spec x inv), (Z.eqb_spec y inv); cbn; lia. Qed.

Definition imin' inv x y := if (x =? inv) || (y =? inv) then inv else Z.min x y.
Definition imax' inv x y := if (x =? inv) || (y =? inv) then inv else Z.max x y.
Ltac eqcases := repeat match goal with |- context [?a =? ?b] => destruct (Z.eqb_spec a b); cbn [orb] end.
Lemma imin'_comm inv x y : imin' inv x y = imin' inv y x.
Proof. unfold imin'. eqcases; lia. Qed.
Lemma imax'_comm inv x y : imax' inv x y = imax' inv y x.
Proof. unfold imax'. eqcases; lia. Qed.
Lemma imin'_assoc inv x y z : imin' inv x (imin' inv y z) = imin' inv (imin' inv x y) z.
Proof. unfold imin'. destruct (Z.eqb_spec x inv), (Z.eqb_spec y inv), (Z.eqb_spec z inv); cbn [orb]; rewrite ?Z.eqb_refl; cbn [orb]; eqcases; lia. Qed.
Lemma imax'_assoc inv x y z : imax' inv x (imax' inv y z) = imax' inv (imax' inv x y) z.
Proof. unfold imax'. destruct (Z.eqb_spec x inv), (Z.eqb_spec y inv), (Z.eqb_spec z inv); cbn [orb]; rewrite ?Z.eqb_refl; cbn [orb]; eqcases; lia. Qed.

Section Tree.
  Context {A : Type} (f : A -> A -> A) (fc : forall x y, f x y = f y x) (fa : forall x y z, f x (f y z) = f (f x y) z).
  Definition fold1 (l : list A) (d : A) : A := match l with [] => d | x :: l' => fold_left f l' x end.
  Lemma fold_left_f l : forall a b, fold_left f l (f a b) = f a (fold_left f l b).
  Proof using fa. clear fc. induction l as [|x l IH]; intros a b; cbn; auto. rewrite <- fa, IH. auto. Qed.
  Lemma fold1_app a b d : a <> [] -> b <> [] -> fold1 (a ++ b) d = f (fold1 a d) (fold1 b d).
  Proof using fa. clear fc. destruct a as [|x a], b as [|y b]; try tauto. intros _ _. cbn. rewrite fold_left_app. cbn. apply fold_left_f. Qed.
  Lemma leaves_ne (t : tree A) : leaves t <> [].
  Proof. induction t; cbn; [discriminate|]. intros C. apply app_eq_nil in C. tauto. Qed.
  Lemma reduce_fold1 t d : reduce f t = fold1 (leaves t) d.
  Proof using fa. clear fc. induction t as [x|l IHl r IHr]; cbn; auto. rewrite fold1_app, IHl, IHr by apply leaves_ne. reflexivity. Qed.
  Lemma fold1_perm l l' d : Permutation l l' -> fold1 l d = fold1 l' d.
  Proof using fa fc.
    intros P. assert (G : forall l l', Permutation l l' -> forall a, fold_left f l a = fold_left f l' a).
    { clear -fc fa. intros l l' P. induction P as [|x l l' P IH|x y l|l l' l'' P1 IH1 P2 IH2]; intros a; cbn; auto.
      - now rewrite <- !fa, (fc x y).
      - now rewrite IH1. }
    revert d. induction P as [|x l l' P IH|x y l|l l' l'' P1 IH1 P2 IH2]; intros d; cbn; auto.
    - now rewrite fc.
    - now rewrite IH1. Qed.
  Lemma reduce_perm t t' : Permutation (leaves t) (leaves t') -> reduce f t = reduce f t'.
  Proof using fa fc. intros P. assert (d : A) by (clear -t; induction t; auto). rewrite (reduce_fold1 t d), (reduce_fold1 t' d). now apply fold1_perm. Qed.
End Tree.

Lemma reduce_ext {A} (f g : A -> A -> A) (P : A -> Prop) t : (forall x y, P x -> P y -> f x y = g x y /\ P (f x y)) -> (forall x, In x (leaves t) -> P x) ->
  reduce f t = reduce g t /\ P (reduce f t).
Proof.
  intros H. induction t as [x|l IHl r IHr]; cbn; intros Hp; [split; auto|].
  destruct IHl as (El & Pl); [intros; apply Hp, in_or_app; auto|]. destruct IHr as (Er & Pr); [intros; apply Hp, in_or_app; auto|].
  rewrite <- El, <- Er. now apply H.
Qed.

(** ** CRC *)

Lemma bnd_bits n a : 0 <= n -> 0 <= a -> (a < 2 ^ n <-> forall i, n <= i -> Z.testbit a i = false).
Proof.
  intros Hn Ha. split.
  - intros H i Hi. destruct (Z.eq_dec a 0) as [->|Na]; [apply Z.bits_0|]. apply Z.bits_above_log2; auto. apply Z.log2_lt_pow2 in H; lia.
  - intros H. destruct (Z.eq_dec a 0) as [->|Na]; [apply Z.pow_pos_nonneg; lia|]. apply Z.log2_lt_pow2; [lia|].
    destruct (Z.lt_ge_cases (Z.log2 a) n); auto. pose proof (Z.bit_log2 a ltac:(lia)) as Q. rewrite H in Q by lia. discriminate.
Qed.

Definition bnd (n a : Z) : Prop := 0 <= a < 2 ^ n.
Lemma bnd_lxor n a b : 0 <= n -> bnd n a -> bnd n b -> bnd n (Z.lxor a b).
Proof.
  intros Hn (A & A') (B & B'). assert (N : 0 <= Z.lxor a b) by (apply Z.lxor_nonneg; tauto). split; auto. apply bnd_bits; auto.
  intros i Hi. rewrite Z.lxor_spec, (proj1 (bnd_bits n a Hn A) A'), (proj1 (bnd_bits n b Hn B) B'); auto.
Qed.
Lemma bnd_lor n a b : 0 <= n -> bnd n a -> bnd n b -> bnd n (Z.lor a b).
Proof.
  intros Hn (A & A') (B & B'). assert (N : 0 <= Z.lor a b) by (apply Z.lor_nonneg; tauto). split; auto. apply bnd_bits; auto.
  intros i Hi. rewrite Z.lor_spec, (proj1 (bnd_bits n a Hn A) A'), (proj1 (bnd_bits n b Hn B) B'); auto.
Qed.
Lemma bnd_le n m a : 0 <= n <= m -> bnd n a -> bnd m a.
Proof. intros H (A & B). split; auto. eapply Z.lt_le_trans; eauto. apply Z.pow_le_mono_r; lia. Qed.
Lemma bnd_shiftl n k a : 0 <= n -> 0 <= k -> bnd n a -> bnd (n + k) (Z.shiftl a k).
Proof. intros Hn Hk (A & B). unfold bnd. rewrite Z.shiftl_mul_pow2, Z.pow_add_r by auto. pose proof (Z.pow_pos_nonneg 2 k). nia. Qed.
Lemma bnd_shiftr n k a : 0 <= k -> k <= n -> bnd n a -> bnd (n - k) (Z.shiftr a k).
Proof. intros Hk Hn H. apply shiftr_range; try lia. unfold bnd in H. replace (k + (n - k)) with n by lia. auto. Qed.

Lemma lor_lxor_hi k a b : 0 <= k -> bnd k a -> Z.lor a (Z.shiftl b k) = Z.lxor a (Z.shiftl b k).
Proof.
  intros Hk (A & A'). apply Z.bits_inj'. intros i Hi. rewrite Z.lor_spec, Z.lxor_spec. destruct (Z.lt_ge_cases i k).
  - rewrite Z.shiftl_spec_low by auto. now rewrite Bool.orb_false_r, Bool.xorb_false_r.
  - rewrite (proj1 (bnd_bits k a Hk A) A') by auto. now rewrite Bool.xorb_false_l.
Qed.

Lemma iter_out {A} n (f : A -> A) x : Nat.iter (S n) f x = f (Nat.iter n f x).
Proof. reflexivity. Qed.
Lemma iter_inv {A} (P : A -> Prop) (f : A -> A) n x : P x -> (forall y, P y -> P (f y)) -> P (Nat.iter n f x).
Proof. intros Hx Hf. induction n; [exact Hx|]. rewrite iter_out. auto. Qed.

Section Crc.
  Context (poly : Z).
  Local Notation B1 := (crc_bit poly).
  Definition B8 (c : Z) : Z := Nat.iter 8 B1 c.

  Lemma odd_land c : (Z.land c 1 =? 1) = Z.odd c.
  Proof using. clear. change 1 with (Z.ones 1) at 1. rewrite Z.land_ones by lia. change (2 ^ 1) with 2. rewrite Zmod_odd. destruct (Z.odd c); reflexivity. Qed.
  Lemma odd_lxor a b : Z.odd (Z.lxor a b) = xorb (Z.odd a) (Z.odd b).
  Proof using. clear. rewrite <- !Z.bit0_odd. apply Z.lxor_spec. Qed.

  Lemma crc_bit_lin a b : B1 (Z.lxor a b) = Z.lxor (B1 a) (B1 b).
  Proof using.
    unfold crc_bit. rewrite !odd_land, odd_lxor, Z.shiftr_lxor. destruct (Z.odd a), (Z.odd b); cbn [xorb]; auto.
    - rewrite (Z.lxor_comm (Z.shiftr b 1) poly), Z.lxor_assoc, <- (Z.lxor_assoc poly), Z.lxor_nilpotent, Z.lxor_0_l. reflexivity.
    - now rewrite !Z.lxor_assoc, (Z.lxor_comm poly).
    - now rewrite Z.lxor_assoc.
  Qed.
  Lemma iter_bit_lin n a b : Nat.iter n B1 (Z.lxor a b) = Z.lxor (Nat.iter n B1 a) (Nat.iter n B1 b).
  Proof using. induction n as [|n IH]; auto. rewrite !iter_out, IH. apply crc_bit_lin. Qed.
  Lemma crc_bit_shl y : B1 (Z.shiftl y 1) = y.
  Proof using.
    unfold crc_bit. rewrite odd_land. replace (Z.odd (Z.shiftl y 1)) with false.
    - rewrite Z.shiftr_shiftl_l by lia. apply Z.shiftl_0_r.
    - rewrite <- Z.bit0_odd, Z.shiftl_spec_low by lia. reflexivity.
  Qed.
  Lemma iter_S {A} n (f : A -> A) x : Nat.iter (S n) f x = Nat.iter n f (f x).
  Proof using. clear. induction n as [|n IH]; auto. rewrite !iter_out, <- IH. reflexivity. Qed.
  Lemma iter_bit_shl n : forall y, Nat.iter n B1 (Z.shiftl y (Z.of_nat n)) = y.
  Proof using.
    induction n as [|n IH]; intros y; [apply Z.shiftl_0_r|]. rewrite iter_S. replace (Z.shiftl y (Z.of_nat (S n))) with (Z.shiftl (Z.shiftl y (Z.of_nat n)) 1).
    - rewrite crc_bit_shl. apply IH.
    - rewrite Z.shiftl_shiftl by lia. f_equal. lia.
  Qed.
  Lemma iter_bit_0 n : Nat.iter n B1 0 = 0.
  Proof using. induction n as [|n IH]; auto. rewrite iter_out, IH. reflexivity. Qed.

  Lemma split_low k c : 0 <= k -> c = Z.lxor (Z.land c (Z.ones k)) (Z.shiftl (Z.shiftr c k) k).
  Proof using.
    clear. intros Hk. apply Z.bits_inj'. intros i Hi. rewrite Z.lxor_spec, Z.land_spec. destruct (Z.lt_ge_cases i k).
    - rewrite Z.shiftl_spec_low, Z.ones_spec_low by lia. now rewrite Bool.andb_true_r, Bool.xorb_false_r.
    - rewrite Z.ones_spec_high, Z.shiftl_spec, Z.shiftr_spec by lia. rewrite Bool.andb_false_r, Bool.xorb_false_l. f_equal. lia.
  Qed.

  (** *** one bit at a time *)
  Lemma fold_bits n : forall b c, bnd (Z.of_nat n) b -> fold_left (crc_step poly) (bits_of n b) c = Nat.iter n B1 (Z.lxor c b).
  Proof using.
    induction n as [|n IH]; intros b c Hb.
    - assert (b = 0) by (unfold bnd in Hb; cbn in Hb; lia). subst b. cbn. now rewrite Z.lxor_0_r.
    - assert (Eb : bits_of (S n) b = Z.odd b :: bits_of n (Z.shiftr b 1)).
      { unfold bits_of. cbn [seq map]. rewrite Z.bit0_odd. f_equal. rewrite <- seq_shift, map_map. apply map_ext. intros i. rewrite Z.shiftr_spec by lia. f_equal. lia. }
      rewrite Eb. cbn [fold_left]. rewrite IH, iter_S.
      + f_equal. rewrite (split_low 1 b) at 3 by lia. rewrite <- Z.lxor_assoc, crc_bit_lin, crc_bit_shl. f_equal.
        unfold crc_step, crc_bit. rewrite odd_land, odd_lxor, Z.shiftr_lxor.
        change (Z.ones 1) with 1. assert (Z.odd (Z.land b 1) = Z.odd b) as ->.
        { rewrite <- !Z.bit0_odd, Z.land_spec. cbn. apply Bool.andb_true_r. }
        assert (Z.shiftr (Z.land b 1) 1 = 0) as ->.
        { change 1 with (Z.ones 1) at 1. rewrite Z.land_ones, Z.shiftr_div_pow2 by lia. apply Z.div_small, Z.mod_pos_bound. reflexivity. }
        now rewrite Z.lxor_0_r.
      + replace (Z.of_nat n) with (Z.of_nat (S n) - 1) by lia. apply bnd_shiftr; try lia. auto.
  Qed.

  Definition crc_byte (c b : Z) : Z := B8 (Z.lxor c b).
  Lemma fold_message bytes : is_bytes bytes -> forall c, fold_left (crc_step poly) (message_bits bytes) c = fold_left crc_byte bytes c.
  Proof using.
    unfold message_bits. induction bytes as [|b l IH]; intros H c; auto. cbn [map concat fold_left]. rewrite fold_left_app, fold_bits, IH; auto.
    - intros x Hx. apply H. cbn. auto.
    - apply (H b). cbn. auto.
  Qed.

  (** *** tables *)
  Lemma B8_lin a b : B8 (Z.lxor a b) = Z.lxor (B8 a) (B8 b).
  Proof using. apply iter_bit_lin. Qed.
  Lemma B8_shl y : B8 (Z.shiftl y 8) = y.
  Proof using. apply (iter_bit_shl 8). Qed.
  Lemma B8_split c : B8 c = Z.lxor (B8 (Z.land c 255)) (Z.shiftr c 8).
  Proof using. rewrite (split_low 8 c) at 1 by lia. rewrite B8_lin, B8_shl. reflexivity. Qed.

  Lemma table_ok i : 0 <= i < 256 -> zrd (makeTable poly) i = Some (B8 i).
  Proof using.
    intros H. rewrite zrd_some by lia. unfold makeTable. rewrite nth_error_map, nth_error_seq.
    replace (Z.to_nat i <? 256)%nat with true by (symmetry; apply Nat.ltb_lt; lia). cbn [option_map Nat.add]. rewrite Z2Nat.id by lia. reflexivity.
  Qed.
  Lemma land255 c : 0 <= Z.land c 255 < 256.
  Proof using. clear. change 255 with (Z.ones 8). rewrite Z.land_ones by lia. apply Z.mod_pos_bound. reflexivity. Qed.
  Lemma tab_next_ok c : tab_next (makeTable poly) c = Some (B8 c).
  Proof using. unfold tab_next. rewrite table_ok by apply land255. cbn [option_map]. now rewrite <- B8_split. Qed.
  Lemma tab_iter_ok j c : tab_iter (makeTable poly) j c = Some (Nat.iter j B8 c).
  Proof using. induction j as [|j IH]; cbn [tab_iter]; auto. rewrite IH, tab_next_ok. reflexivity. Qed.
  Lemma helper_row_ok j : helper_row (makeTable poly) j = Some (map (fun i => Nat.iter (S j) B8 (Z.of_nat i)) (seq 0 256)).
  Proof using.
    unfold helper_row. apply all_some_map. intros i Hi. apply in_seq in Hi. rewrite table_ok, tab_iter_ok, iter_S by lia. reflexivity.
  Qed.
  Definition helper : list (list Z) := map (fun j => map (fun i => Nat.iter (S j) B8 (Z.of_nat i)) (seq 0 256)) (seq 0 8).
  Lemma helper_ok : makeSlicingBy8Table (makeTable poly) = Some helper.
  Proof using. unfold makeSlicingBy8Table. apply all_some_map. intros j _. apply helper_row_ok. Qed.
  Lemma look_ok j i : (j < 8)%nat -> 0 <= i < 256 -> look helper j i = Some (Nat.iter (S j) B8 i).
  Proof using.
    intros Hj Hi. unfold look, helper. rewrite nth_error_map, nth_error_seq. replace (j <? 8)%nat with true by (symmetry; now apply Nat.ltb_lt). cbn [option_map Nat.add].
    rewrite zrd_some, nth_error_map, nth_error_seq by lia. replace (Z.to_nat i <? 256)%nat with true by (symmetry; apply Nat.ltb_lt; lia). cbn [option_map Nat.add].
    now rewrite Z2Nat.id by lia.
  Qed.

  Lemma iter8_lin n a b : Nat.iter n B8 (Z.lxor a b) = Z.lxor (Nat.iter n B8 a) (Nat.iter n B8 b).
  Proof using. induction n as [|n IH]; auto. rewrite !iter_out, IH. apply B8_lin. Qed.
  Lemma iter8_split n c : Nat.iter (S n) B8 c = Z.lxor (Nat.iter (S n) B8 (Z.land c 255)) (Nat.iter n B8 (Z.shiftr c 8)).
  Proof using. rewrite !iter_S, B8_split, iter8_lin. reflexivity. Qed.

  Lemma slice8_ok c : bnd 64 c -> slice8 helper c = Some (Nat.iter 8 B8 c).
  Proof using.
    intros Hc. unfold slice8. rewrite !look_ok by (try apply land255; try lia; apply (shiftr_range c 56 8); unfold bnd in Hc; lia). cbn [oxor]. f_equal.
    rewrite (iter8_split 7 c), (iter8_split 6 (Z.shiftr c 8)), !Z.shiftr_shiftr by lia. cbn [Z.add Pos.add Pos.succ Pos.add_carry].
    rewrite (iter8_split 5 (Z.shiftr c 16)), !Z.shiftr_shiftr by lia. cbn [Z.add Pos.add Pos.succ Pos.add_carry].
    rewrite (iter8_split 4 (Z.shiftr c 24)), !Z.shiftr_shiftr by lia. cbn [Z.add Pos.add Pos.succ Pos.add_carry].
    rewrite (iter8_split 3 (Z.shiftr c 32)), !Z.shiftr_shiftr by lia. cbn [Z.add Pos.add Pos.succ Pos.add_carry].
    rewrite (iter8_split 2 (Z.shiftr c 40)), !Z.shiftr_shiftr by lia. cbn [Z.add Pos.add Pos.succ Pos.add_carry].
    rewrite (iter8_split 1 (Z.shiftr c 48)), !Z.shiftr_shiftr by lia. cbn [Z.add Pos.add Pos.succ Pos.add_carry].
    now rewrite !Z.lxor_assoc.
  Qed.

  (** *** eight bytes at once *)
  Fixpoint word (l : list Z) : Z := match l with [] => 0 | b :: l' => Z.lxor b (Z.shiftl (word l') 8) end.
  Lemma fold_word l : forall c, fold_left crc_byte l c = Nat.iter (length l) B8 (Z.lxor c (word l)).
  Proof using.
    induction l as [|b l IH]; intros c; cbn [fold_left word length]; [cbn; now rewrite Z.lxor_0_r|].
    rewrite IH, iter_S. f_equal. unfold crc_byte. now rewrite <- (Z.lxor_assoc c), (B8_lin (Z.lxor c b)), B8_shl.
  Qed.

  Lemma word8_ok p0 p1 p2 p3 p4 p5 p6 p7 : is_bytes [p0; p1; p2; p3; p4; p5; p6; p7] ->
    word8 p0 p1 p2 p3 p4 p5 p6 p7 = word [p0; p1; p2; p3; p4; p5; p6; p7] /\ bnd 64 (word8 p0 p1 p2 p3 p4 p5 p6 p7).
  Proof using.
    clear. intros H. assert (Hb : forall p, In p [p0; p1; p2; p3; p4; p5; p6; p7] -> bnd 8 p) by exact H.
    assert (X0 : bnd 8 p0) by (apply Hb; cbn; auto).
    assert (st : forall k a p, 0 <= k -> bnd k a -> In p [p0; p1; p2; p3; p4; p5; p6; p7] -> bnd (8 + k) (Z.lor a (Z.shiftl p k)) /\ Z.lor a (Z.shiftl p k) = Z.lxor a (Z.shiftl p k)).
    { intros k a p Hk Ha Hp. split; [|now apply lor_lxor_hi]. apply bnd_lor; [lia|eapply bnd_le; [|eassumption]; lia|]. apply bnd_shiftl; auto; lia. }
    unfold word8. destruct (st 8 _ p1 ltac:(lia) X0) as (X1 & ->); [cbn; tauto|]. rewrite lor_lxor_hi in X1 by (auto; lia).
    destruct (st 16 _ p2 ltac:(lia) X1) as (X2 & E2); [cbn; tauto|]. rewrite E2 in *.
    destruct (st 24 _ p3 ltac:(lia) X2) as (X3 & E3); [cbn; tauto|]. rewrite E3 in *.
    destruct (st 32 _ p4 ltac:(lia) X3) as (X4 & E4); [cbn; tauto|]. rewrite E4 in *.
    destruct (st 40 _ p5 ltac:(lia) X4) as (X5 & E5); [cbn; tauto|]. rewrite E5 in *.
    destruct (st 48 _ p6 ltac:(lia) X5) as (X6 & E6); [cbn; tauto|]. rewrite E6 in *.
    destruct (st 56 _ p7 ltac:(lia) X6) as (X7 & E7); [cbn; tauto|]. rewrite E7 in *.
    split; [|exact X7]. cbn [word]. rewrite Z.shiftl_0_l, Z.lxor_0_r.
    repeat rewrite ?Z.shiftl_lxor, ?Z.shiftl_shiftl by lia. cbn [Z.add Pos.add Pos.succ Pos.add_carry]. now rewrite !Z.lxor_assoc.
  Qed.

  Context (Hpoly : bnd 64 poly).
  Lemma crc_bit_bnd c : bnd 64 c -> bnd 64 (B1 c).
  Proof using Hpoly.
    intros H. assert (bnd 64 (Z.shiftr c 1)) by (apply (bnd_le 63); [lia|]; now apply (bnd_shiftr 64 1)).
    unfold crc_bit. destruct (Z.land c 1 =? 1); auto. apply bnd_lxor; auto. lia.
  Qed.
  Lemma B8_bnd c : bnd 64 c -> bnd 64 (B8 c).
  Proof using Hpoly. intros H. unfold B8. apply iter_inv; auto. apply crc_bit_bnd. Qed.
  Lemma fold_bnd l : is_bytes l -> forall c, bnd 64 c -> bnd 64 (fold_left crc_byte l c).
  Proof using Hpoly.
    induction l as [|b l IH]; intros H c Hc; auto. cbn [fold_left]. apply IH; [intros x Hx; apply H; cbn; auto|].
    apply B8_bnd, bnd_lxor; auto; [lia|]. apply (bnd_le 8); [lia|]. apply (H b). cbn. auto.
  Qed.

  Lemma slice_loop_ok n : forall p c, (length p <= n)%nat -> is_bytes p -> bnd 64 c ->
    exists a r, p = a ++ r /\ slice_loop helper c p = Some (fold_left crc_byte a c, r).
  Proof using Hpoly.
    induction n as [|n IH]; intros p c Ln Hp Hc.
    - destruct p; [|cbn in Ln; lia]. exists [], []. auto.
    - destruct p as [|p0 [|p1 [|p2 [|p3 [|p4 [|p5 [|p6 [|p7 p']]]]]]]].
      1-8: (eexists [], _; split; reflexivity).
      assert (Hw : is_bytes [p0; p1; p2; p3; p4; p5; p6; p7]) by (intros x Hx; apply Hp; cbn in Hx |- *; tauto).
      destruct (word8_ok _ _ _ _ _ _ _ _ Hw) as (Ew & Bw). cbn [slice_loop].
      rewrite slice8_ok by (apply bnd_lxor; auto; lia). rewrite Ew.
      pose proof (fold_word [p0; p1; p2; p3; p4; p5; p6; p7] c) as F. change (length [p0; p1; p2; p3; p4; p5; p6; p7]) with 8%nat in F. rewrite <- F.
      destruct (IH p' (fold_left crc_byte [p0; p1; p2; p3; p4; p5; p6; p7] c)) as (a & r & -> & E).
      + cbn [length] in Ln. lia.
      + intros x Hx. apply Hp. cbn. tauto.
      + now apply fold_bnd.
      + exists ([p0; p1; p2; p3; p4; p5; p6; p7] ++ a), r. split; [reflexivity|]. rewrite fold_left_app. exact E.
  Qed.

  Lemma byte_loop_ok p : is_bytes p -> forall c, byte_loop (makeTable poly) c p = Some (fold_left crc_byte p c).
  Proof using.
    clear Hpoly. induction p as [|b p IH]; intros H c; auto. cbn [byte_loop fold_left].
    assert (Hb : bnd 8 b) by (apply (H b); cbn; auto).
    rewrite table_ok by (apply (bnd_lxor 8); auto; [lia|apply land255]).
    rewrite IH by (intros x Hx; apply H; cbn; auto). do 2 f_equal. unfold crc_byte. rewrite (B8_split (Z.lxor c b)). f_equal.
    - f_equal. apply Z.bits_inj'. intros i Hi. rewrite Z.lxor_spec, !Z.land_spec, Z.lxor_spec. destruct (Z.lt_ge_cases i 8).
      + change 255 with (Z.ones 8). rewrite Z.ones_spec_low by lia. now rewrite !Bool.andb_true_r.
      + rewrite (proj1 (bnd_bits 8 b ltac:(lia) (proj1 Hb)) (proj2 Hb)) by auto. change 255 with (Z.ones 8). rewrite Z.ones_spec_high by lia. now rewrite !Bool.andb_false_r.
    - rewrite Z.shiftr_lxor. replace (Z.shiftr b 8) with 0; [now rewrite Z.lxor_0_r|]. symmetry. rewrite Z.shiftr_div_pow2 by lia. now apply Z.div_small.
  Qed.

  Lemma crc64_ok crc p : bnd 64 crc -> is_bytes p -> CalculateCRC64 helper crc p = Some (crc64 poly crc p).
  Proof using Hpoly.
    intros Hc Hp. unfold crc64. rewrite fold_message by auto. unfold CalculateCRC64.
    assert (Eh : exists r, helper = makeTable poly :: r).
    { exists (map (fun j => map (fun i => Nat.iter (S j) B8 (Z.of_nat i)) (seq 0 256)) (seq 1 7)). reflexivity. }
    destruct Eh as (r & Eh). rewrite Eh. rewrite <- Eh. clear Eh.
    assert (Bc : bnd 64 (Z.lxor crc ones64)) by (apply bnd_lxor; auto; unfold bnd, ones64; lia).
    destruct (64 <=? Z.of_nat (length p)).
    - destruct (slice_loop_ok (length p) p (Z.lxor crc ones64)) as (a & q & -> & E); auto. rewrite E, byte_loop_ok, fold_left_app; auto.
      intros x Hx. apply Hp, in_or_app. auto.
    - rewrite byte_loop_ok; auto.
  Qed.

  Lemma crc64_bnd crc p : bnd 64 crc -> is_bytes p -> bnd 64 (crc64 poly crc p).
  Proof using Hpoly.
    intros Hc Hp. unfold crc64. rewrite fold_message by auto. assert (bnd 64 ones64) by (unfold bnd, ones64; lia).
    apply bnd_lxor; auto; [lia|]. apply fold_bnd; auto. apply bnd_lxor; auto. lia.
  Qed.

  Lemma crc64_app crc a b : crc64 poly crc (a ++ b) = crc64 poly (crc64 poly crc a) b.
  Proof using.
    clear Hpoly. unfold crc64, message_bits. rewrite map_app, concat_app, fold_left_app. do 2 f_equal.
    rewrite Z.lxor_assoc, Z.lxor_nilpotent, Z.lxor_0_r. reflexivity.
  Qed.

  (** *** what it detects: with the top bit of the polynomial set, a step loses nothing *)
  Context (Htop : Z.testbit poly 63 = true).
  Lemma crc_bit_top c : bnd 64 c -> Z.testbit (B1 c) 63 = Z.odd c.
  Proof using Htop.
    intros (C & C'). unfold crc_bit. rewrite odd_land.
    assert (S : Z.testbit (Z.shiftr c 1) 63 = false) by (rewrite Z.shiftr_spec by lia; apply (proj1 (bnd_bits 64 c ltac:(lia) C) C'); lia).
    destruct (Z.odd c); [rewrite Z.lxor_spec, S, Htop; reflexivity|exact S].
  Qed.
  Lemma crc_bit_zero c : bnd 64 c -> B1 c = 0 -> c = 0.
  Proof using Htop.
    intros H E. pose proof (crc_bit_top c H) as T. rewrite E, Z.bits_0 in T. unfold crc_bit in E. rewrite odd_land, <- T in E.
    rewrite (Zdiv2_odd_eqn c), <- T. rewrite Z.div2_spec, E. reflexivity.
  Qed.
  Lemma iter8_zero n c : bnd 64 c -> Nat.iter n B8 c = 0 -> c = 0.
  Proof using Hpoly Htop.
    assert (G : forall m c, bnd 64 c -> Nat.iter m B1 c = 0 -> c = 0).
    { induction m as [|m IH]; intros d Hd E; auto. rewrite iter_out in E. apply IH; auto. apply crc_bit_zero; auto. apply iter_inv; auto. apply crc_bit_bnd. }
    intros Hc E. induction n as [|n IH]; auto. rewrite iter_out in E. apply IH. eapply (G 8%nat); [|exact E]. apply iter_inv; auto. apply B8_bnd.
  Qed.
  Lemma iter8_inj n a b : bnd 64 a -> bnd 64 b -> Nat.iter n B8 a = Nat.iter n B8 b -> a = b.
  Proof using Hpoly Htop.
    intros Ha Hb E. apply Z.lxor_eq. apply (iter8_zero n); [apply bnd_lxor; auto; lia|]. now rewrite iter8_lin, E, Z.lxor_nilpotent.
  Qed.
  Lemma word_bnd l : is_bytes l -> bnd (8 * Z.of_nat (length l)) (word l).
  Proof using.
    clear. induction l as [|b l IH]; intros H; [unfold bnd; cbn; lia|]. cbn [word]. apply bnd_lxor; [lia|apply (bnd_le 8); [cbn [length]; lia|apply (H b); cbn; auto]|].
    replace (8 * Z.of_nat (length (b :: l))) with (8 * Z.of_nat (length l) + 8) by (cbn [length]; lia). apply bnd_shiftl; try lia. apply IH. intros x Hx. apply H. cbn. auto.
  Qed.
  Lemma word_inj a : forall b, length a = length b -> is_bytes a -> is_bytes b -> word a = word b -> a = b.
  Proof using.
    clear. induction a as [|x a IH]; intros [|y b] L Ha Hb E; try discriminate; auto. cbn [word] in E.
    assert (Hx : bnd 8 x) by (apply (Ha x); cbn; auto). assert (Hy : bnd 8 y) by (apply (Hb y); cbn; auto).
    assert (G : forall u v, bnd 8 u -> Z.land (Z.lxor u (Z.shiftl v 8)) (Z.ones 8) = u /\ Z.shiftr (Z.lxor u (Z.shiftl v 8)) 8 = v).
    { intros u v Hu. split.
      - rewrite Z.land_comm. apply Z.bits_inj'. intros i Hi. rewrite Z.land_spec, Z.lxor_spec. destruct (Z.lt_ge_cases i 8).
        + rewrite Z.ones_spec_low, Z.shiftl_spec_low by lia. now rewrite Bool.xorb_false_r.
        + rewrite Z.ones_spec_high by lia. symmetry. apply (proj1 (bnd_bits 8 u ltac:(lia) (proj1 Hu)) (proj2 Hu)). auto.
      - rewrite Z.shiftr_lxor, Z.shiftr_shiftl_l by lia. cbn [Z.sub Z.add Z.opp Z.pos_sub]. rewrite Z.shiftl_0_r.
        replace (Z.shiftr u 8) with 0; [apply Z.lxor_0_l|]. symmetry. rewrite Z.shiftr_div_pow2 by lia. now apply Z.div_small. }
    destruct (G x (word a) Hx) as (A & B), (G y (word b) Hy) as (A' & B'). rewrite E in A, B. f_equal; [congruence|].
    apply IH; [cbn in L; lia|intros z Hz; apply Ha; cbn; auto|intros z Hz; apply Hb; cbn; auto|congruence].
  Qed.

  Lemma crc64_detects crc a x y c : bnd 64 crc -> is_bytes (a ++ x ++ c) -> is_bytes y -> length x = length y -> (length x <= 8)%nat ->
    crc64 poly crc (a ++ x ++ c) = crc64 poly crc (a ++ y ++ c) -> x = y.
  Proof using Hpoly Htop.
    intros Hc Hb Hy Lxy L8 E. assert (Ha : is_bytes a) by (intros z Hz; apply Hb, in_or_app; auto).
    assert (Hx : is_bytes x) by (intros z Hz; apply Hb, in_or_app; right; apply in_or_app; auto).
    assert (Hc' : is_bytes c) by (intros z Hz; apply Hb, in_or_app; right; apply in_or_app; auto).
    rewrite !crc64_app in E. pose proof (crc64_bnd crc a Hc Ha) as B0. set (c0 := crc64 poly crc a) in *.
    pose proof (crc64_bnd c0 x B0 Hx) as B1'. pose proof (crc64_bnd c0 y B0 Hy) as B2.
    assert (G : forall s t, bnd 64 s -> bnd 64 t -> forall l, is_bytes l -> crc64 poly s l = crc64 poly t l -> s = t).
    { clear -Hpoly Htop. intros s t Hs Ht l Hl E. unfold crc64 in E. rewrite !fold_message, !fold_word in E by auto.
      assert (X : forall u v, Z.lxor u ones64 = Z.lxor v ones64 -> u = v).
      { intros u v Q. rewrite <- (Z.lxor_0_r u), <- (Z.lxor_0_r v), <- (Z.lxor_nilpotent ones64), <- !Z.lxor_assoc, Q. reflexivity. }
      apply X in E. assert (Bo : bnd 64 ones64) by (unfold bnd, ones64; lia).
      (* peel the bytes off one after the other *)
      rewrite <- !fold_word in E.
      assert (Y : forall s t, bnd 64 s -> bnd 64 t -> fold_left crc_byte l s = fold_left crc_byte l t -> s = t).
      { clear -Hpoly Htop Hl. induction l as [|b l IH]; intros s t Hs Ht E; auto. cbn [fold_left] in E.
        assert (Hb : bnd 64 b) by (apply (bnd_le 8); [lia|apply (Hl b); cbn; auto]).
        apply IH in E.
        - unfold crc_byte in E. apply (iter8_inj 1) in E; try (apply bnd_lxor; auto; lia).
          rewrite <- (Z.lxor_0_r s), <- (Z.lxor_0_r t), <- (Z.lxor_nilpotent b), <- !Z.lxor_assoc, E. reflexivity.
        - intros z Hz. apply Hl. cbn. auto.
        - apply B8_bnd, bnd_lxor; auto; lia.
        - apply B8_bnd, bnd_lxor; auto; lia. }
      apply Y in E; try (apply bnd_lxor; auto; lia). apply X, E. }
    apply (G _ _ B1' B2 c Hc') in E. unfold crc64 in E. rewrite !fold_message, !fold_word, Lxy in E by auto.
    assert (X : forall u v w, Z.lxor u w = Z.lxor v w -> u = v).
    { clear. intros u v w Q. rewrite <- (Z.lxor_0_r u), <- (Z.lxor_0_r v), <- (Z.lxor_nilpotent w), <- !Z.lxor_assoc, Q. reflexivity. }
    apply X in E. assert (Bo : bnd 64 (Z.lxor c0 ones64)) by (apply bnd_lxor; auto; unfold bnd, ones64; lia).
    apply iter8_inj in E.
    - apply word_inj; auto. rewrite (Z.lxor_comm _ (word x)), (Z.lxor_comm _ (word y)) in E. now apply X in E.
    - apply bnd_lxor; auto; [lia|]. apply (bnd_le (8 * Z.of_nat (length x))); [lia|]. now apply word_bnd.
    - apply bnd_lxor; auto; [lia|]. apply (bnd_le (8 * Z.of_nat (length y))); [lia|]. now apply word_bnd.
  Qed.
End Crc.

(** ** Time windows *)

Section TW.
  Context {T U : Type} (conv : T -> U) (op : U -> T -> U) (vals : list T) (times : list Z) (delta : Z).
  Context (L : length times = length vals) (S : sorted_times times) (C : close_times times).

  Lemma tw_back_ok i ti : nth_error times i = Some ti -> forall k acc, (k <= i)%nat ->
    exists lo, (lo <= k)%nat /\ (forall j tj, (j < k)%nat -> nth_error times j = Some tj -> ((lo <= j)%nat <-> ti - tj <= delta)) /\
      tw_back op vals times ti delta k acc = Some (fold_left op (rev (firstn (k - lo) (skipn lo vals))) acc).
  Proof using L S C.
    clear conv. intros Ei. pose proof (nth_error_Some_lt _ _ _ Ei) as Li. induction k as [|j IH]; intros acc Lk.
    - exists 0%nat. split; auto. split; [intros; lia|]. reflexivity.
    - destruct (nth_error_lt times j) as (tj & Ej); [lia|]. destruct (nth_error_lt vals j) as (x & Ex); [lia|].
      cbn [tw_back]. rewrite Ej, Ex.
      assert (D : 0 <= ti - tj < 2 ^ 63).
      { split; [specialize (S j i tj ti ltac:(lia) Ej Ei); lia|]. apply C; eapply nth_error_In; eauto. }
      replace ((- 2 ^ 63 <=? ti - tj) && (ti - tj <? 2 ^ 63)) with true by lia.
      destruct (Z.leb_spec (ti - tj) delta) as [W|W].
      + destruct (IH (op acc x) ltac:(lia)) as (lo & Llo & Hw & E). exists lo. split; [lia|]. split.
        * intros q tq Lq Eq. destruct (Nat.eq_dec q j) as [->|]; [rewrite Ej in Eq; inversion Eq; subst tq; split; intros; lia|apply Hw; auto; lia].
        * rewrite E. f_equal. replace (Datatypes.S j - lo)%nat with (Datatypes.S (j - lo)) by lia.
          assert (F : firstn (Datatypes.S (j - lo)) (skipn lo vals) = firstn (j - lo) (skipn lo vals) ++ [x]).
          { rewrite (firstn_S_snoc _ _ x); auto. rewrite nth_error_skipn. rewrite <- Ex. f_equal. lia. }
          rewrite F, rev_app_distr. reflexivity.
      + exists (Datatypes.S j). split; [lia|]. split.
        * intros q tq Lq Eq. split; [lia|]. intros Q. exfalso. destruct (Nat.eq_dec q j) as [->|]; [rewrite Ej in Eq; inversion Eq; lia|].
          specialize (S q j tq tj ltac:(lia) Eq Ej). lia.
        * now rewrite Nat.sub_diag.
  Qed.

  Lemma tw_row_ok i : (i < length vals)%nat -> exists r, tw_row conv op vals times delta i = Some r /\ window_row conv op vals times delta i r.
  Proof using L S C.
    intros Hi. destruct (nth_error_lt times i) as (ti & Ei); [lia|]. destruct (nth_error_lt vals i Hi) as (x & Ex).
    unfold tw_row. rewrite Ei, Ex. destruct (tw_back_ok i ti Ei i (conv x) ltac:(lia)) as (lo & Ll & Hw & E). eexists. split; [exact E|].
    exists lo, x. split; [|auto]. split; auto. intros j t tj Lj Et Etj. rewrite Ei in Et. inversion Et; subst t. now apply Hw.
  Qed.

  Lemma TimeWindow_ok ord thr d : fair ord -> exists r, TimeWindow conv op ord thr vals times delta d = Some r /\
    length r = length vals /\ forall i y, nth_error r i = Some y -> window_row conv op vals times delta i y.
  Proof using L S C.
    intros Ho. unfold TimeWindow.
    assert (G : exists g, forall i, (i < length vals)%nat -> tw_row conv op vals times delta i = Some (g i) /\ window_row conv op vals times delta i (g i)).
    { exists (fun i => match tw_row conv op vals times delta i with Some r => r | None => d end). intros i Hi. destruct (tw_row_ok i Hi) as (r & -> & W). auto. }
    destruct G as (g & G). exists (map g (seq 0 (length vals))). split.
    - apply par_map_some; auto; [unfold CHUNK; lia|]. intros i Hi. now apply G.
    - rewrite map_length, seq_length. split; auto. intros i y E. rewrite nth_error_map, nth_error_seq in E.
      destruct (i <? length vals)%nat eqn:Q; [|discriminate]. cbn in E. inversion E. subst y. apply Nat.ltb_lt in Q. now apply G.
  Qed.
End TW.

Lemma filter_tail {A} (p : A -> bool) a b : (forall x, In x a -> p x = false) -> (forall x, In x b -> p x = true) -> filter p (a ++ b) = b.
Proof.
  intros Ha Hb. rewrite filter_app. assert (filter p a = []) as ->.
  { induction a as [|x a IH]; auto. cbn. rewrite Ha by (cbn; auto). apply IH. intros; apply Ha; cbn; auto. }
  cbn. induction b as [|x b IH]; auto. cbn. rewrite Hb by (cbn; auto). f_equal. apply IH. intros; apply Hb; cbn; auto.
Qed.

Lemma map_fst_combine {A B} (a : list A) : forall b : list B, length b = length a -> map fst (combine a b) = a.
Proof. induction a as [|x a IH]; intros [|y b] L; cbn in *; try discriminate; auto. f_equal. apply IH. lia. Qed.

Lemma within_window vals times delta i lo x : length times = length vals -> 0 <= delta -> nth_error vals i = Some x -> window_of times delta i lo ->
  within vals times delta i = firstn (i - lo) (skipn lo vals) ++ [x].
Proof.
  intros L D Ex (Ll & Hw). assert (Li : (i < length vals)%nat) by (eapply nth_error_Some_lt; eauto).
  destruct (nth_error_lt times i ltac:(lia)) as (ti & Eti). unfold within. rewrite (nth_error_nth times i 0 Eti).
  set (c := combine vals times).
  assert (Lc : length c = length vals) by (unfold c; rewrite combine_length; lia).
  assert (Ec : firstn (S i) c = firstn lo c ++ firstn (S i - lo) (skipn lo c)).
  { rewrite <- (firstn_skipn lo c) at 1. rewrite firstn_app, firstn_firstn, firstn_length. replace (Nat.min (S i) lo) with lo by lia. do 2 f_equal. lia. }
  assert (Nc : forall j p, nth_error c j = Some p -> nth_error vals j = Some (fst p) /\ nth_error times j = Some (snd p)).
  { intros j [u v] E. unfold c in E. clear -E. revert times j E. induction vals as [|y l IH]; intros [|t ts] [|j] E; cbn in *; try discriminate.
    - inversion E. auto.
    - now apply IH. }
  rewrite Ec, filter_tail.
  - assert (Em : map fst c = vals) by (apply map_fst_combine; auto).
    rewrite <- firstn_map, <- skipn_map, Em. replace (S i - lo)%nat with (S (i - lo)) by lia. apply firstn_S_snoc.
    rewrite nth_error_skipn, <- Ex. f_equal. lia.
  - intros p Hp. apply In_nth_error in Hp. destruct Hp as (j & E). assert (Lj : (j < lo)%nat).
    { apply nth_error_Some_lt in E. rewrite firstn_length in E. lia. }
    rewrite nth_error_firstn in E. destruct (j <? lo)%nat; [|discriminate]. apply Nc in E. destruct E as (_ & E).
    specialize (Hw j ti (snd p) ltac:(lia) Eti E). lia.
  - intros p Hp. apply In_nth_error in Hp. destruct Hp as (j & E). assert (Lj : (j < S i - lo)%nat).
    { apply nth_error_Some_lt in E. rewrite firstn_length in E. lia. }
    rewrite nth_error_firstn in E. destruct (j <? S i - lo)%nat; [|discriminate]. rewrite nth_error_skipn in E. apply Nc in E. destruct E as (_ & E).
    destruct (Nat.eq_dec (lo + j) i) as [Q|Q]; [rewrite Q, Eti in E; inversion E; lia|].
    specialize (Hw (lo + j)%nat ti (snd p) ltac:(lia) Eti E). lia.
Qed.

(** arithmetic with any reduction [N] that is a ring homomorphism onto its image *)
Definition reducing (N : Z -> Z) : Prop := (forall a b, N (N a + b) = N (a + b)) /\ (forall a b, N (N a * b) = N (a * b)) /\ (forall a, N (N a) = N a).

Lemma reducing_mod m : reducing (fun v => v mod m).
Proof.
  repeat split; intros.
  - apply Zplus_mod_idemp_l.
  - apply Zmult_mod_idemp_l.
  - apply Zmod_mod.
Qed.
Lemma wrap_cong w a b : a mod 2 ^ w = b mod 2 ^ w -> wrap w a = wrap w b.
Proof. unfold wrap. intros ->. reflexivity. Qed.
Lemma wrap_mod w a : 0 < w -> wrap w a mod 2 ^ w = a mod 2 ^ w.
Proof.
  intros Hw. unfold wrap. destruct (a mod 2 ^ w <? 2 ^ (w - 1)); [apply Zmod_mod|].
  replace (a mod 2 ^ w - 2 ^ w) with (a mod 2 ^ w + (-1) * 2 ^ w) by lia. rewrite Z_mod_plus_full. apply Zmod_mod.
Qed.
Lemma reducing_wrap w : 0 < w -> reducing (wrap w).
Proof.
  intros Hw. repeat split; intros; apply wrap_cong.
  - now rewrite <- Zplus_mod_idemp_l, wrap_mod, Zplus_mod_idemp_l by auto.
  - now rewrite <- Zmult_mod_idemp_l, wrap_mod, Zmult_mod_idemp_l by auto.
  - now apply wrap_mod.
Qed.

Lemma zsum_app a b : zsum (a ++ b) = zsum a + zsum b.
Proof. induction a as [|x a IH]; cbn; [reflexivity|]. fold (zsum (a ++ b)) (zsum a). rewrite IH. lia. Qed.
Lemma zprod_app a b : zprod (a ++ b) = zprod a * zprod b.
Proof. induction a as [|x a IH]; cbn [app zprod fold_right]; [symmetry; apply Z.mul_1_l|]. fold (zprod (a ++ b)) (zprod a). rewrite IH. lia. Qed.

Lemma fold_sum N l : reducing N -> forall a, fold_left (fun a x => N (a + x)) (rev l) (N a) = N (zsum l + a).
Proof.
  intros (Ha & _ & Hn). induction l as [|x l IH] using rev_ind; intros a; [reflexivity|].
  rewrite rev_app_distr. cbn [rev app fold_left]. rewrite Ha, IH, zsum_app. f_equal. cbn. lia.
Qed.
Lemma fold_prod N l : reducing N -> forall a, fold_left (fun a x => N (a * x)) (rev l) (N a) = N (zprod l * a).
Proof.
  intros (_ & Ha & Hn). induction l as [|x l IH] using rev_ind; intros a; [cbn [rev fold_left zprod fold_right]; now rewrite Z.mul_1_l|].
  rewrite rev_app_distr. cbn [rev app fold_left]. rewrite Ha, IH, zprod_app. f_equal. cbn [zprod fold_right]. ring.
Qed.

Lemma window_sum N vals times delta i r : reducing N -> length times = length vals -> 0 <= delta ->
  window_row N (fun a x => N (a + x)) vals times delta i r -> r = N (zsum (within vals times delta i)).
Proof.
  intros HN L D (lo & x & W & Ex & ->). rewrite (within_window _ _ _ _ _ _ L D Ex W), fold_sum, zsum_app by auto. f_equal. cbn. lia.
Qed.
Lemma window_prod N vals times delta i r : reducing N -> length times = length vals -> 0 <= delta ->
  window_row N (fun a x => N (a * x)) vals times delta i r -> r = N (zprod (within vals times delta i)).
Proof.
  intros HN L D (lo & x & W & Ex & ->). rewrite (within_window _ _ _ _ _ _ L D Ex W), fold_prod, zprod_app by auto. f_equal. cbn [zprod fold_right]. ring.
Qed.

Lemma TimeWindow_sum N ord thr vals times delta d : reducing N -> fair ord -> length times = length vals -> sorted_times times -> close_times times -> 0 <= delta ->
  TimeWindow N (fun a x => N (a + x)) ord thr vals times delta d = Some (map (fun i => N (zsum (within vals times delta i))) (seq 0 (length vals))).
Proof.
  intros HN Ho L S C D. destruct (TimeWindow_ok N (fun a x => N (a + x)) vals times delta L S C ord thr d Ho) as (r & -> & Lr & Hr). f_equal.
  apply list_ext. intros i. rewrite nth_error_map, nth_error_seq. destruct (Nat.ltb_spec i (length vals)) as [Q|Q]; cbn.
  - destruct (nth_error_lt r i ltac:(lia)) as (y & E). rewrite E. f_equal. apply (window_sum N); auto.
  - apply nth_error_None. lia.
Qed.
Lemma TimeWindow_prod N ord thr vals times delta d : reducing N -> fair ord -> length times = length vals -> sorted_times times -> close_times times -> 0 <= delta ->
  TimeWindow N (fun a x => N (a * x)) ord thr vals times delta d = Some (map (fun i => N (zprod (within vals times delta i))) (seq 0 (length vals))).
Proof.
  intros HN Ho L S C D. destruct (TimeWindow_ok N (fun a x => N (a * x)) vals times delta L S C ord thr d Ho) as (r & -> & Lr & Hr). f_equal.
  apply list_ext. intros i. rewrite nth_error_map, nth_error_seq. destruct (Nat.ltb_spec i (length vals)) as [Q|Q]; cbn.
  - destruct (nth_error_lt r i ltac:(lia)) as (y & E). rewrite E. f_equal. apply (window_prod N); auto.
  - apply nth_error_None. lia.
Qed.

(** ** the whole CRC function *)
Lemma CalculateCRC_ok p : is_bytes p -> CalculateCRC p = Some (wrap 64 (crc64 ECMA 0 p)).
Proof.
  intros H. unfold CalculateCRC. rewrite helper_ok, (crc64_ok ECMA); auto; unfold bnd, ECMA; lia.
Qed.

Lemma imm_grouping lo hi inv (t t' : tree Z) : Permutation (leaves t) (leaves t') -> lo <= inv <= hi -> (forall x, In x (leaves t) -> lo <= x <= hi) ->
  reduce (imin_pass lo inv) t = reduce (imin_pass lo inv) t' /\ reduce (imax_pass hi inv) t = reduce (imax_pass hi inv) t'.
Proof.
  intros P Hi Ht. assert (Ht' : forall x, In x (leaves t') -> lo <= x <= hi).
  { intros x Hx. apply Ht. eapply Permutation_in; [apply Permutation_sym; eassumption|auto]. }
  assert (A : forall u, (forall x, In x (leaves u) -> lo <= x <= hi) -> reduce (imin_pass lo inv) u = reduce (imin' inv) u /\ reduce (imax_pass hi inv) u = reduce (imax' inv) u).
  { intros u Hu. split; apply (reduce_ext _ _ (fun x => lo <= x <= hi)); auto; intros x y Hx Hy.
    - rewrite imin_spec by lia. split; [reflexivity|]. destruct (_ || _); lia.
    - rewrite imax_spec by lia. split; [reflexivity|]. destruct (_ || _); lia. }
  destruct (A t Ht) as (-> & ->), (A t' Ht') as (-> & ->). split; apply reduce_perm; auto using imin'_comm, imin'_assoc, imax'_comm, imax'_assoc.
Qed.

Lemma sorted_times_1 a : sorted_times [a].
Proof. intros i j x y L E F. apply nth_error_Some_lt in F. cbn in F. lia. Qed.
Lemma sorted_times_2 a b : a <= b -> sorted_times [a; b].
Proof.
  intros H i j x y L E F. pose proof (nth_error_Some_lt _ _ _ F) as G. cbn in G. assert (i = 0 /\ j = 1)%nat as (-> & ->) by lia.
  cbn in E, F. inversion E. inversion F. lia.
Qed.
