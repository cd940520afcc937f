(** Proofs about bytes, structs and files. *)
From Verif Require Import Base SdsModel SdsSpec.
Local Open Scope Z_scope.

(** ** pad *)
Lemma pad_eq : forall n, pad n = 512 * ((n + 511) / 512).
Proof.
  intro n. unfold pad. change 511 with (Z.ones 9) at 2. rewrite <- Z.ldiff_land, Z.ldiff_ones_r by lia.
  rewrite Z.shiftl_mul_pow2, Z.shiftr_div_pow2 by lia. change (2 ^ 9) with 512. lia.
Qed.
Lemma pad_ge : forall n, n <= pad n < n + 512.
Proof. intro n. rewrite pad_eq. pose proof (Z.div_mod (n + 511) 512 ltac:(lia)). pose proof (Z.mod_pos_bound (n + 511) 512 ltac:(lia)). lia. Qed.
Lemma pad_mod : forall n, pad n mod 512 = 0.
Proof. intro n. rewrite pad_eq. rewrite Z.mul_comm. apply Z.mod_mul. lia. Qed.
Lemma pad_mono : forall a b, a <= b -> pad a <= pad b.
Proof. intros. rewrite !pad_eq. assert ((a + 511) / 512 <= (b + 511) / 512) by (apply Z.div_le_mono; lia). lia. Qed.
Lemma pad_add : forall o n, o mod 512 = 0 -> pad (o + n) = o + pad n.
Proof.
  intros o n H. rewrite !pad_eq. apply Z.mod_divide in H; [|lia]. destruct H as [q ->].
  replace (q * 512 + n + 511) with (n + 511 + q * 512) by lia. rewrite Z.div_add by lia. lia.
Qed.
Lemma pad_0 : pad 0 = 0. Proof. reflexivity. Qed.
Lemma pad_nonneg : forall n, 0 <= n -> 0 <= pad n.
Proof. intros. pose proof (pad_ge n). lia. Qed.
Lemma mod_add : forall a b, a mod 512 = 0 -> b mod 512 = 0 -> (a + b) mod 512 = 0.
Proof. intros a b A B. rewrite Z.add_mod, A, B by lia. reflexivity. Qed.
Lemma pad_le_mod : forall o n, o mod 512 = 0 -> o <= n -> o <= pad n.
Proof. intros. pose proof (pad_ge n). lia. Qed.

(** ** Integers as bytes *)
Lemma length_le : forall w v, length (le w v) = w.
Proof. induction w; intros; cbn; auto. Qed.
Lemma unle_le : forall w v, unle (le w v) = v mod 256 ^ Z.of_nat w.
Proof.
  induction w; intros; cbn [le unle].
  - change (256 ^ Z.of_nat 0) with 1. now rewrite Z.mod_1_r.
  - rewrite IHw. replace (Z.of_nat (S w)) with (Z.of_nat w + 1) by lia. rewrite Z.pow_add_r by lia. change (256 ^ 1) with 256.
    rewrite (Z.mul_comm _ 256). rewrite Z.rem_mul_r; [reflexivity | lia |]. apply Z.pow_pos_nonneg; lia.
Qed.
Definition conv (l : nat * bool) (v : Z) : Z := if snd l then sgn (fst l) v else v mod 256 ^ Z.of_nat (fst l).
Lemma sgn_mod : forall w v, sgn w (v mod 256 ^ Z.of_nat w) = sgn w v.
Proof. intros. unfold sgn. rewrite Z.mod_mod; [reflexivity|]. apply Z.pow_nonzero; lia. Qed.
Lemma sgn_id : forall w v, - (256 ^ Z.of_nat (S w) / 2) <= v < 256 ^ Z.of_nat (S w) / 2 -> sgn (S w) v = v.
Proof.
  intros w v. unfold sgn. set (m := 256 ^ Z.of_nat (S w)).
  assert (E : m = 2 * (m / 2)).
  { unfold m. rewrite Nat2Z.inj_succ, Z.pow_succ_r by lia. replace (256 * 256 ^ Z.of_nat w) with ((128 * 256 ^ Z.of_nat w) * 2) by lia. rewrite Z.div_mul by lia. lia. }
  intros [A B]. assert (0 < m) by (unfold m; apply Z.pow_pos_nonneg; lia).
  destruct (Z_lt_le_dec v 0).
  - assert (M : v mod m = v + m). { symmetry. apply Z.mod_unique with (-1); lia. }
    rewrite M. destruct (v + m <? m / 2) eqn:L; [apply Z.ltb_lt in L; lia | lia].
  - rewrite Z.mod_small by lia. destruct (v <? m / 2) eqn:L; [reflexivity | apply Z.ltb_ge in L; lia].
Qed.
Lemma sgn8 : forall v, - 2 ^ 63 <= v < 2 ^ 63 -> sgn 8 v = v.
Proof. intros. apply sgn_id. change (256 ^ Z.of_nat 8 / 2) with (2 ^ 63). lia. Qed.
Lemma sgn4 : forall v, - 2 ^ 31 <= v < 2 ^ 31 -> sgn 4 v = v.
Proof. intros. apply sgn_id. change (256 ^ Z.of_nat 4 / 2) with (2 ^ 31). lia. Qed.
Lemma sgn2 : forall v, - 2 ^ 15 <= v < 2 ^ 15 -> sgn 2 v = v.
Proof. intros. apply sgn_id. change (256 ^ Z.of_nat 2 / 2) with (2 ^ 15). lia. Qed.
Lemma sgn1 : forall v, - 128 <= v < 128 -> sgn 1 v = v.
Proof. intros. apply sgn_id. change (256 ^ Z.of_nat 1 / 2) with 128. lia. Qed.
Lemma sgn_range : forall w v, - (256 ^ Z.of_nat (S w) / 2) <= sgn (S w) v < 256 ^ Z.of_nat (S w) / 2.
Proof.
  intros w v. unfold sgn. set (m := 256 ^ Z.of_nat (S w)).
  assert (E : m = 2 * (m / 2)).
  { unfold m. rewrite Nat2Z.inj_succ, Z.pow_succ_r by lia. replace (256 * 256 ^ Z.of_nat w) with ((128 * 256 ^ Z.of_nat w) * 2) by lia. rewrite Z.div_mul by lia. lia. }
  assert (0 < m) by (unfold m; apply Z.pow_pos_nonneg; lia). pose proof (Z.mod_pos_bound v m ltac:(lia)).
  destruct (v mod m <? m / 2) eqn:L; [apply Z.ltb_lt in L | apply Z.ltb_ge in L]; lia.
Qed.
Lemma sgn_idem : forall w v, sgn (S w) (sgn (S w) v) = sgn (S w) v.
Proof. intros. apply sgn_id. apply sgn_range. Qed.

(** ** Structs *)
Lemma dec_enc : forall lay vs rest, length lay = length vs ->
  dec lay (enc lay vs ++ rest) = map (fun p => conv (fst p) (snd p)) (combine lay vs).
Proof.
  induction lay as [|[w s] lay IH]; intros [|v vs] rest L; try discriminate L; [reflexivity|].
  cbn [enc dec combine map fst snd]. injection L as L.
  assert (F : firstn w ((le w v ++ enc lay vs) ++ rest) = le w v).
  { rewrite <- app_assoc. rewrite <- (length_le w v) at 1. rewrite firstn_app, Nat.sub_diag, firstn_O, firstn_all, app_nil_r. reflexivity. }
  assert (G : skipn w ((le w v ++ enc lay vs) ++ rest) = enc lay vs ++ rest).
  { rewrite <- app_assoc. rewrite <- (length_le w v) at 1. rewrite skipn_app, Nat.sub_diag, skipn_O, skipn_all. reflexivity. }
  rewrite F, G, IH, unle_le by assumption. f_equal. unfold conv. cbn [fst snd]. destruct s; [apply sgn_mod | reflexivity].
Qed.
Lemma fld_dec_enc : forall lay vs rest i, length lay = length vs -> (i < length lay)%nat ->
  fld (dec lay (enc lay vs ++ rest)) i = conv (nth i lay (O, false)) (fld vs i).
Proof.
  intros lay vs rest i L I. rewrite dec_enc by assumption. unfold fld.
  rewrite (nth_indep _ 0 (conv (O, false) 0)) by (rewrite map_length, combine_length; lia).
  change (conv (O, false) 0) with ((fun p => conv (fst p) (snd p)) ((O, false), 0)). rewrite map_nth.
  rewrite combine_nth by assumption. reflexivity.
Qed.
Lemma dec_enc_id : forall lay vs rest, Forall2 (fun l v => conv l v = v) lay vs -> dec lay (enc lay vs ++ rest) = vs.
Proof.
  intros lay vs rest H. assert (L : length lay = length vs) by (clear rest; induction H; cbn; congruence).
  rewrite dec_enc by assumption. induction H; [reflexivity|]. cbn [combine map fst snd]. rewrite H. f_equal. apply IHForall2. cbn in L. lia.
Qed.
Lemma length_dec : forall lay bs, length (dec lay bs) = length lay.
Proof. induction lay as [|[w s] lay IH]; intros; cbn [dec length]; [reflexivity | now rewrite IH]. Qed.
Definition width (lay : layout) : nat := fold_right (fun l n => (fst l + n)%nat) O lay.
Lemma length_enc : forall lay vs, length lay = length vs -> length (enc lay vs) = width lay.
Proof.
  induction lay as [|[w s] lay IH]; intros [|v vs] L; try discriminate L; [reflexivity|].
  cbn [enc width fold_right fst]. rewrite app_length, length_le. rewrite IH by (cbn in L; lia). reflexivity.
Qed.
Lemma width_header : width header_layout = 208%nat. Proof. reflexivity. Qed.
Lemma width_block : width block_layout = 128%nat. Proof. reflexivity. Qed.
Lemma length_enc_header : forall h, length h = 33%nat -> length (enc_header h) = 512%nat.
Proof. intros h L. unfold enc_header. rewrite app_length, length_enc, width_header by (rewrite L; reflexivity). rewrite repeat_length. reflexivity. Qed.

(** ** Files *)
Lemma len_app : forall a b, len (a ++ b) = len a + len b.
Proof. intros. unfold len. rewrite app_length. lia. Qed.
Lemma len_nonneg : forall a, 0 <= len a. Proof. intro. unfold len. lia. Qed.
Definition has (f : file) (o : Z) (x : list Z) : Prop := 0 <= o /\ forall i v, nth_error x i = Some v -> nth_error f (Z.to_nat o + i) = Some v.

Lemma nth_error_pwrite : forall f o bs i, bs <> [] ->
  nth_error (pwrite f o bs) i =
    if (i <? Z.to_nat o)%nat then (if (i <? length f)%nat then nth_error f i else Some 0)
    else if (i <? Z.to_nat o + length bs)%nat then nth_error bs (i - Z.to_nat o) else nth_error f i.
Proof.
  intros f o bs i NE. unfold pwrite. destruct bs as [|b0 bs0]; [congruence|]. set (bs := b0 :: bs0) in *. set (n := Z.to_nat o).
  destruct (i <? n)%nat eqn:A.
  - apply Nat.ltb_lt in A. destruct (i <? length f)%nat eqn:B.
    + apply Nat.ltb_lt in B. rewrite nth_error_app1 by (rewrite firstn_length; lia). rewrite nth_error_firstn.
      destruct (i <? n)%nat eqn:C; [reflexivity | apply Nat.ltb_ge in C; lia].
    + apply Nat.ltb_ge in B. rewrite nth_error_app2 by (rewrite firstn_length; lia). rewrite firstn_length.
      rewrite nth_error_app1 by (rewrite repeat_length; lia). rewrite nth_error_repeat by lia. reflexivity.
  - apply Nat.ltb_ge in A. rewrite nth_error_app2 by (rewrite firstn_length; lia). rewrite firstn_length.
    rewrite nth_error_app2 by (rewrite repeat_length; lia). rewrite repeat_length.
    replace (i - Nat.min n (length f) - (n - length f))%nat with (i - n)%nat by lia.
    destruct (i <? n + length bs)%nat eqn:B.
    + apply Nat.ltb_lt in B. rewrite nth_error_app1 by lia. reflexivity.
    + apply Nat.ltb_ge in B. rewrite nth_error_app2 by lia. rewrite nth_error_skipn. f_equal. lia.
Qed.
Lemma len_pwrite : forall f o bs, 0 <= o -> bs <> [] -> len (pwrite f o bs) = Z.max (len f) (o + len bs).
Proof.
  intros f o bs O NE. unfold pwrite. destruct bs as [|b0 bs0]; [congruence|]. set (bs := b0 :: bs0) in *. unfold len.
  rewrite !app_length, firstn_length, repeat_length, skipn_length. lia.
Qed.
Lemma len_pwrite_ge : forall f o bs, 0 <= o -> len f <= len (pwrite f o bs).
Proof. intros f o bs O. destruct bs as [|b bs]; [cbn; lia|]. rewrite len_pwrite by (assumption || discriminate). lia. Qed.
Lemma has_nil : forall f o, 0 <= o -> has f o [].
Proof. intros. split; [assumption|]. intros [|i] v E; discriminate E. Qed.
Lemma has_pwrite_same : forall f o x, 0 <= o -> has (pwrite f o x) o x.
Proof.
  intros f o x O. split; [assumption|]. intros i v E. destruct x as [|b x]; [destruct i; discriminate E|].
  rewrite nth_error_pwrite by discriminate. assert (i < length (b :: x))%nat by (apply nth_error_Some; congruence).
  destruct (Z.to_nat o + i <? Z.to_nat o)%nat eqn:A; [apply Nat.ltb_lt in A; lia|].
  destruct (Z.to_nat o + i <? Z.to_nat o + length (b :: x))%nat eqn:B; [|apply Nat.ltb_ge in B; lia].
  replace (Z.to_nat o + i - Z.to_nat o)%nat with i by lia. assumption.
Qed.
Lemma has_pwrite_other : forall f o x p y, has f o x -> 0 <= p -> o + len x <= p \/ p + len y <= o -> has (pwrite f p y) o x.
Proof.
  intros f o x p y [O H] P D. split; [assumption|]. intros i v E. destruct y as [|b y]; [cbn; now apply H|].
  rewrite nth_error_pwrite by discriminate. assert (i < length x)%nat by (apply nth_error_Some; congruence).
  assert (F : nth_error f (Z.to_nat o + i) = Some v) by now apply H. unfold len in D.
  assert (Z.to_nat o + i < length f)%nat by (apply nth_error_Some; congruence).
  destruct (Z.to_nat o + i <? Z.to_nat p)%nat eqn:A.
  - destruct (Z.to_nat o + i <? length f)%nat eqn:B; [assumption | apply Nat.ltb_ge in B; lia].
  - apply Nat.ltb_ge in A. destruct (Z.to_nat o + i <? Z.to_nat p + length (b :: y))%nat eqn:B; [apply Nat.ltb_lt in B; lia | assumption].
Qed.
Lemma has_le_len : forall f o x, has f o x -> x <> [] -> o + len x <= len f.
Proof.
  intros f o x [O H] NE. assert (L : (0 < length x)%nat) by (destruct x; [congruence | cbn; lia]).
  destruct (nth_error x (length x - 1)) as [v|] eqn:E.
  - apply H in E. assert (Z.to_nat o + (length x - 1) < length f)%nat by (apply nth_error_Some; congruence). unfold len. lia.
  - apply nth_error_None in E. lia.
Qed.
Lemma pread_has : forall f o x, has f o x -> pread f o (len x) = Some x.
Proof.
  intros f o x HAS. destruct x as [|b x]; [reflexivity|]. set (y := b :: x) in *. pose proof (has_le_len f o y HAS ltac:(discriminate)) as L.
  destruct HAS as [O H]. assert (0 < len y) by (unfold len, y; cbn; lia). unfold pread.
  destruct (len y =? 0) eqn:Z0; [apply Z.eqb_eq in Z0; lia|].
  rewrite (proj2 (Z.leb_le 0 o)), (proj2 (Z.ltb_lt 0 (len y))), (proj2 (Z.leb_le (o + len y) (len f))) by lia. cbn [andb].
  f_equal. apply list_ext. intro i. rewrite nth_error_firstn. unfold len at 1. rewrite Nat2Z.id. rewrite nth_error_skipn.
  destruct (i <? length y)%nat eqn:A.
  - apply Nat.ltb_lt in A. destruct (nth_error y i) as [v|] eqn:E; [|apply nth_error_None in E; lia].
    rewrite <- (H i v E). f_equal. 
  - apply Nat.ltb_ge in A. symmetry. now apply nth_error_None.
Qed.
Lemma has_app : forall f o x y, has f o (x ++ y) -> has f o x /\ has f (o + len x) y.
Proof.
  intros f o x y [O H]. split; split; [assumption | | pose proof (len_nonneg x); lia | ].
  - intros i v E. apply H. rewrite nth_error_app1; [assumption|]. apply nth_error_Some. congruence.
  - intros i v E. replace (Z.to_nat (o + len x) + i)%nat with (Z.to_nat o + (length x + i))%nat by (unfold len; lia).
    apply H. rewrite nth_error_app2 by lia. replace (length x + i - length x)%nat with i by lia. assumption.
Qed.
Lemma has_prefix : forall f o x n, has f o x -> has f o (firstn n x).
Proof. intros f o x n H. rewrite <- (firstn_skipn n x) in H. now apply has_app in H. Qed.
