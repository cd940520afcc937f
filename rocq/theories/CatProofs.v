(** Proofs about adding arrays of strings. *)
From Verif Require Import Base LstModel LstSpec LstProofs CatModel CatSpec.
Local Open Scope Z_scope.

(** cells up to the first zero *)
Fixpoint upto (l : list Z) : list Z := match l with [] => [] | c :: r => if c =? 0 then [] else c :: upto r end.
Lemma upto_len l : (length (upto l) <= length l)%nat. Proof. induction l as [|c r IH]; cbn; [lia|]. destruct (c =? 0); cbn; lia. Qed.
Lemma text_upto : forall w m p, (p + w <= length m)%nat -> text m p w = Some (upto (firstn w (skipn p m))).
Proof.
  induction w as [|w IH]; intros m p L; [reflexivity|]. cbn [text]. destruct (nth_error m p) as [c|] eqn:E; [|apply nth_error_None in E; lia].
  assert (S : skipn p m = c :: skipn (S p) m).
  { clear - E. revert m E. induction p as [|p IH]; intros [|x m] E; try discriminate; cbn in *; [injection E as ->; reflexivity|]. now apply IH. }
  rewrite S. cbn [firstn upto]. destruct (c =? 0); [reflexivity|]. rewrite IH by lia. reflexivity.
Qed.
Lemma strip_nil l : strip l = [] -> forall i, nth i l 0 = 0.
Proof.
  induction l as [|c r IH]; cbn [strip]; intros H i; [now destruct i|]. destruct (strip r) as [|d t] eqn:E; [|discriminate]. destruct (Z.eqb_spec c 0) as [->|]; [|discriminate]. destruct i; [reflexivity|]. now apply IH.
Qed.
Lemma strip_text l : same_text l (strip l).
Proof.
  intros i. revert i. induction l as [|c r IH]; intros i; [reflexivity|]. cbn [strip]. destruct (strip r) as [|d t] eqn:E.
  - destruct (Z.eqb_spec c 0) as [->|]; [rewrite (strip_nil (0 :: r)) by (cbn; now rewrite E); now destruct i|]. destruct i; [reflexivity|]. cbn [nth]. rewrite (strip_nil r E). now destruct i.
  - destruct i; [reflexivity|]. cbn [nth]. apply IH.
Qed.
Lemma upto_strip l : clean l -> upto l = strip l.
Proof.
  unfold clean. induction l as [|c r IH]; intros C; [reflexivity|]. cbn [upto strip] in *. destruct (Z.eqb_spec c 0) as [->|N].
  - destruct (strip r) as [|d t] eqn:E; [reflexivity|]. exfalso. apply C. now left.
  - destruct (strip r) as [|d t] eqn:E; [rewrite IH by (intros []); reflexivity|]. rewrite IH; [reflexivity|]. intros I. apply C. now right.
Qed.
Lemma clean_full x : ~ In 0 x -> upto x = x.
Proof. induction x as [|c r IH]; intros H; [reflexivity|]. cbn [upto]. destruct (Z.eqb_spec c 0) as [->|]; [exfalso; apply H; now left|]. rewrite IH; [reflexivity|]. intros I. apply H. now right. Qed.

Section Rows.
  Context (m1 m2 : list Z) (w1 w2 f1 f2 n : nat) (F1 : f1 = 0%nat \/ f1 = 1%nat) (F2 : f2 = 0%nat \/ f2 = 1%nat).
  Context (L1 : (f1 * (w1 * (n - 1)) + w1 <= length m1)%nat) (L2 : (f2 * (w2 * (n - 1)) + w2 <= length m2)%nat).
  Definition part1 (i : nat) : list Z := upto (firstn w1 (skipn (f1 * (w1 * i)) m1)).
  Definition part2 (i : nat) : list Z := upto (firstn w2 (skipn (f2 * (w2 * i)) m2)).
  Definition line (i : nat) : list Z := part1 i ++ part2 i ++ repeat 0 (w1 + w2 - (length (part1 i) + length (part2 i))).
  Lemma line_len i : length (line i) = (w1 + w2)%nat.
  Proof.
    unfold line. rewrite !app_length, repeat_length. pose proof (upto_len (firstn w1 (skipn (f1 * (w1 * i)) m1))) as A. pose proof (upto_len (firstn w2 (skipn (f2 * (w2 * i)) m2))) as B.
    fold (part1 i) in A. fold (part2 i) in B. rewrite firstn_length in A, B. lia.
  Qed.
  Lemma one_line i : (i < n)%nat -> cat_one m1 m2 w1 w2 f1 f2 i = Some (line i).
  Proof.
    intros I. unfold cat_one.
    assert (B1 : (f1 * (w1 * i) + w1 <= length m1)%nat) by (destruct F1 as [-> | ->]; nia). assert (B2 : (f2 * (w2 * i) + w2 <= length m2)%nat) by (destruct F2 as [-> | ->]; nia).
    rewrite !text_upto by assumption. reflexivity.
  Qed.
  Lemma all_lines is : (forall i, In i is -> (i < n)%nat) -> cat_rows m1 m2 w1 w2 f1 f2 is = Some (concat (map line is)).
  Proof. induction is as [|i r IH]; intros H; [reflexivity|]. cbn [cat_rows map concat]. rewrite one_line by (apply H; now left). cbn [obind]. rewrite IH by (intros; apply H; now right). reflexivity. Qed.
  Lemma concat_holds junk t f : (1 <= w1 + w2)%nat -> (forall i, (i < n)%nat -> f i = part1 i ++ part2 i) -> holds (Concat junk t m1 m2 w1 w2 f1 f2 (Z.of_nat n)) t n f.
  Proof.
    intros W H. unfold Concat. rewrite Nat2Z.id. rewrite all_lines by (intros i I; apply in_seq in I; lia). destruct (Nat.eqb_spec (w1 + w2) 0); [lia|].
    assert (A : Forall (fun b => length b = (w1 + w2)%nat) (map line (seq 0 n))) by (apply Forall_map, Forall_forall; intros; apply line_len).
    exists (w1 + w2)%nat, (concat (map line (seq 0 n))). split; [reflexivity|]. split; [rewrite (len_concat (w1 + w2)) by exact A; now rewrite map_length, seq_length|].
    intros i I. rewrite (cut_concat (w1 + w2) _ _ (line i) A).
    - rewrite H by assumption. unfold line. rewrite app_assoc. apply same_text_zeros.
    - rewrite nth_error_map, nth_error_seq. apply Nat.ltb_lt in I. rewrite I. reflexivity.
  Qed.
End Rows.

Lemma row_strides n a : row n a -> strides_ok a = true /\ count a = Z.of_nat n.
Proof. intros (D & S & _). unfold strides_ok, count. rewrite D, S. split; [rewrite Z.eqb_refl; cbn [negb]; now rewrite andb_false_r|]. cbn [fold_left]. lia. Qed.
Lemma item_part n a i : row n a -> clean (item_of a i) -> upto (firstn (s_item a) (skipn (1 * (s_item a * i)) (s_mem a))) = strip (item_of a i).
Proof. intros _ C. rewrite <- upto_strip by exact C. unfold item_of, cut. do 3 f_equal. lia. Qed.
Lemma scalar_of s t : suits s t -> scalar_type s t = t /\ scalar_cells s t = Some (chars s) /\ is_str t = true.
Proof. destruct s as [x|x|]; cbn; [intros -> | intros -> | intros []]; auto. Qed.

Lemma row_fits n a : row n a -> (0 < n)%nat -> (1 * (s_item a * (n - 1)) + s_item a <= length (s_mem a))%nat.
Proof. intros (_ & _ & L & _) N. nia. Qed.
Lemma empty_holds junk t m1 m2 w1 w2 f1 f2 f : (1 <= w1 + w2)%nat -> holds (Concat junk t m1 m2 w1 w2 f1 f2 (Z.of_nat 0)) t 0 f.
Proof. intros W. unfold Concat. cbn [Z.of_nat Z.to_nat seq cat_rows]. destruct (Nat.eqb_spec (w1 + w2) 0); [lia|]. exists (w1 + w2)%nat, []. split; [reflexivity|]. split; [reflexivity|]. intros; lia. Qed.
Lemma add_arrays junk out n a b : is_str (s_type a) = true -> s_type b = s_type a -> row n a -> row n b -> clean_row n a -> clean_row n b ->
  holds (Add junk out (AA a b)) (s_type a) n (fun i => strip (item_of a i) ++ strip (item_of b i)).
Proof.
  intros T TB A B CA CB. unfold Add. destruct (row_strides n a A) as [SA NA], (row_strides n b B) as [SB NB]. rewrite SA, SB. cbn [andb negb]. rewrite T. cbn [orb negb]. rewrite NA, NB, TB, !Z.eqb_refl. cbn [negb].
  pose proof A as (_ & _ & _ & IA). destruct n as [|n]; [apply empty_holds; lia|].
  apply concat_holds; auto; try (apply row_fits; [assumption|lia]); [lia|]. intros i I. unfold part1, part2. rewrite (item_part (S n) a i), (item_part (S n) b i); auto.
Qed.
Lemma add_scalar junk out n a s : suits s (s_type a) -> row n a -> clean_row n a -> ~ In 0 (chars s) ->
  holds (Add junk out (AS a s)) (s_type a) n (fun i => strip (item_of a i) ++ chars s) /\ holds (Add junk out (SA s a)) (s_type a) n (fun i => chars s ++ strip (item_of a i)).
Proof.
  intros T A CA CS. destruct (scalar_of s _ T) as (E1 & E2 & E3). unfold Add. destruct (row_strides n a A) as [SA NA]. rewrite E1, E2, E3, SA, Z.eqb_refl, NA. cbn [negb]. rewrite andb_false_r.
  pose proof A as (_ & _ & _ & IA). destruct n as [|n]; [split; apply empty_holds; lia|]. split; apply concat_holds; auto; try (apply row_fits; [assumption|lia]); try lia.
  - intros i I. unfold part1, part2. rewrite (item_part (S n) a i) by auto. cbn [Nat.mul skipn]. now rewrite firstn_all, clean_full.
  - intros i I. unfold part1, part2. rewrite (item_part (S n) a i) by auto. cbn [Nat.mul skipn]. now rewrite firstn_all, clean_full.
Qed.
(** rows of strings never read outside of the arrays *)
Lemma add_safe junk out n o : match o with AA a b => row n a /\ exists k, row k b | AS a _ | SA _ a => row n a end -> Add junk out o <> Wild.
Proof.
  assert (CW : forall t m1 m2 w1 w2 f1 f2 n, f1 = 0%nat \/ f1 = 1%nat -> f2 = 0%nat \/ f2 = 1%nat -> ((0 < n)%nat -> (f1 * (w1 * (n - 1)) + w1 <= length m1)%nat /\ (f2 * (w2 * (n - 1)) + w2 <= length m2)%nat) -> Concat junk t m1 m2 w1 w2 f1 f2 (Z.of_nat n) <> Wild).
  { intros t m1 m2 w1 w2 f1 f2 [|k] F1 F2 L; unfold Concat; [cbn; destruct (_ =? 0)%nat; discriminate|]. destruct L as [L1 L2]; [lia|]. rewrite Nat2Z.id. rewrite (all_lines m1 m2 w1 w2 f1 f2 (S k)); auto.
    - destruct (_ =? 0)%nat; discriminate. - intros i I. apply in_seq in I. lia. }
  destruct o as [a b|a s|s a]; unfold Add.
  - intros [A [k B]]. destruct (row_strides n a A) as [SA NA], (row_strides k b B) as [SB NB]. rewrite SA, SB. cbn [andb negb]. destruct (negb (_ || _)); [discriminate|]. rewrite NA, NB.
    destruct (Z.eqb_spec (Z.of_nat n) (Z.of_nat k)) as [E|]; cbn [negb]; [|discriminate]. destruct (negb _); [discriminate|]. apply CW; auto. intros N. assert (k = n) by lia. subst k. split; now apply row_fits.
  - intros A. destruct (row_strides n a A) as [SA NA]. destruct (negb out && _); [discriminate|]. rewrite SA, NA. cbn [negb]. destruct (scalar_cells s (s_type a)) as [x|]; [|destruct (is_str _); discriminate]. destruct (negb _); [discriminate|].
    apply CW; auto. intros N. split; [now apply row_fits|lia].
  - intros A. destruct (row_strides n a A) as [SA NA]. destruct (negb out && _); [discriminate|]. rewrite SA, NA. cbn [negb]. destruct (scalar_cells s (s_type a)) as [x|]; [|destruct (is_str _); discriminate]. destruct (negb _); [discriminate|].
    apply CW; auto. intros N. split; [lia|now apply row_fits].
Qed.
