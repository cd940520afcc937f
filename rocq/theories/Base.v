(** List and arithmetic facts shared by all subsystems.  Nothing here models riptide code. *)
From Coq Require Export List Arith ZArith NArith Lia Bool Permutation Sorted.
From Coq Require Export ZifyBool ZifyNat ZifyN.
Export ListNotations.
Ltac Zify.zify_post_hook ::= Z.div_mod_to_equations.

(** ** Point updates of lists (arrays) *)
Fixpoint upd {A} (l : list A) (i : nat) (x : A) : list A :=
  match l, i with
  | [], _ => []
  | _ :: t, O => x :: t
  | h :: t, S j => h :: upd t j x
  end.

(** Checked write: [None] is an out-of-bounds write. *)
Definition wr {A} (l : list A) (i : nat) (x : A) : option (list A) :=
  if i <? length l then Some (upd l i x) else None.

Lemma length_upd {A} (l : list A) i x : length (upd l i x) = length l.
Proof. revert i; induction l as [|h t IH]; intros [|i]; simpl; auto. Qed.

Lemma nth_error_upd_eq {A} (l : list A) i x : i < length l -> nth_error (upd l i x) i = Some x.
Proof. revert i; induction l as [|h t IH]; intros [|i]; simpl; intros H; try lia; auto.
  apply IH; lia. Qed.

Lemma nth_error_upd_neq {A} (l : list A) i j x : i <> j -> nth_error (upd l i x) j = nth_error l j.
Proof. revert i j; induction l as [|h t IH]; intros [|i] [|j] H; simpl; auto; try lia. Qed.

Lemma nth_error_upd {A} (l : list A) i j x :
  nth_error (upd l i x) j = if (i =? j) && (i <? length l) then Some x else nth_error l j.
Proof.
  destruct (Nat.eqb_spec i j) as [->|Hne]; simpl.
  - destruct (Nat.ltb_spec j (length l)).
    + now apply nth_error_upd_eq.
    + rewrite !(proj2 (nth_error_None _ _)); auto; rewrite ?length_upd; lia.
  - now apply nth_error_upd_neq.
Qed.

Lemma upd_oob {A} (l : list A) i x : length l <= i -> upd l i x = l.
Proof. revert i; induction l as [|h t IH]; intros [|i]; simpl; intros H; try lia; auto.
  now rewrite IH by lia. Qed.

Lemma upd_same {A} (l : list A) i x : nth_error l i = Some x -> upd l i x = l.
Proof. revert i; induction l as [|h t IH]; intros [|i]; simpl; intros H; try discriminate; auto.
  - now inversion H.
  - now rewrite IH. Qed.

Lemma upd_comm {A} (l : list A) i j x y : i <> j -> upd (upd l i x) j y = upd (upd l j y) i x.
Proof. revert i j; induction l as [|h t IH]; intros [|i] [|j] H; simpl; auto; try lia.
  now rewrite IH by lia. Qed.

Lemma upd_upd {A} (l : list A) i x y : upd (upd l i x) i y = upd l i y.
Proof. revert i; induction l as [|h t IH]; intros [|i]; simpl; auto. now rewrite IH. Qed.

Lemma upd_app_l {A} (l r : list A) i x : i < length l -> upd (l ++ r) i x = upd l i x ++ r.
Proof. revert i; induction l as [|h t IH]; intros [|i]; simpl; intros H; try lia; auto.
  now rewrite IH by lia. Qed.

Lemma upd_app_r {A} (l r : list A) i x : length l <= i -> upd (l ++ r) i x = l ++ upd r (i - length l) x.
Proof. revert i; induction l as [|h t IH]; intros i H; simpl.
  - now rewrite Nat.sub_0_r.
  - simpl in H; destruct i as [|i]; [lia|]; simpl; now rewrite IH by lia. Qed.

Lemma upd_split {A} (l : list A) i x y :
  nth_error l i = Some y ->
  exists a b, l = a ++ y :: b /\ length a = i /\ upd l i x = a ++ x :: b.
Proof.
  intros H. destruct (nth_error_split _ _ H) as (a & b & -> & Hl).
  exists a, b; repeat split; auto. rewrite upd_app_r by lia.
  now replace (i - length a) with 0 by lia.
Qed.

Lemma map_upd {A B} (f : A -> B) l i x : map f (upd l i x) = upd (map f l) i (f x).
Proof. revert i; induction l as [|h t IH]; intros [|i]; simpl; auto. now rewrite IH. Qed.

(** ** Extensionality for lists *)
Lemma list_ext {A} (l r : list A) : (forall i, nth_error l i = nth_error r i) -> l = r.
Proof.
  revert r; induction l as [|h t IH]; intros [|h' t'] H; auto.
  - specialize (H 0); discriminate.
  - specialize (H 0); discriminate.
  - f_equal; [specialize (H 0); now inversion H | apply IH; intros i; exact (H (S i))].
Qed.

Lemma nth_error_ge {A} (l : list A) i : length l <= i -> nth_error l i = None.
Proof. apply nth_error_None. Qed.

Lemma nth_error_lt {A} (l : list A) i : i < length l -> exists x, nth_error l i = Some x.
Proof. intros H; destruct (nth_error l i) eqn:E; eauto. apply nth_error_None in E; lia. Qed.

Lemma nth_error_Some_lt {A} (l : list A) i x : nth_error l i = Some x -> i < length l.
Proof. intros H; apply nth_error_Some; congruence. Qed.

Lemma nth_error_seq s n i : nth_error (seq s n) i = if i <? n then Some (s + i) else None.
Proof.
  revert s i; induction n as [|n IH]; intros s [|i]; cbn [seq nth_error]; auto.
  - cbn. f_equal; lia.
  - rewrite IH. change (S i <? S n) with (i <? n). destruct (i <? n); auto. f_equal; lia.
Qed.

Lemma nth_error_repeat' {A} (x : A) n i : nth_error (repeat x n) i = if i <? n then Some x else None.
Proof. revert i; induction n as [|n IH]; intros [|i]; simpl; auto. rewrite IH. reflexivity. Qed.

Lemma nth_error_skipn {A} (l : list A) n i : nth_error (skipn n l) i = nth_error l (n + i).
Proof. revert l; induction n as [|n IH]; intros [|h t]; simpl; auto. now destruct i. Qed.

Lemma nth_error_firstn {A} (l : list A) n i :
  nth_error (firstn n l) i = if i <? n then nth_error l i else None.
Proof.
  revert l i; induction n as [|n IH]; intros l i; simpl.
  - now destruct i.
  - destruct l as [|h t]; destruct i as [|i]; simpl; auto.
    + now destruct (S i <? S n).
    + rewrite IH. reflexivity.
Qed.

Lemma firstn_S_snoc {A} (l : list A) n x : nth_error l n = Some x -> firstn (S n) l = firstn n l ++ [x].
Proof.
  revert l; induction n as [|n IH]; intros [|h t] H; try discriminate; simpl in *.
  - now inversion H.
  - f_equal. now apply IH.
Qed.

(** ** Counting *)
Fixpoint countb {A} (f : A -> bool) (l : list A) : nat :=
  match l with [] => 0 | x :: t => (if f x then 1 else 0) + countb f t end.

Lemma countb_app {A} (f : A -> bool) l r : countb f (l ++ r) = countb f l + countb f r.
Proof. induction l as [|x l IH]; simpl; [auto|]. rewrite IH; lia. Qed.

Lemma countb_upd {A} (f : A -> bool) l i x y :
  nth_error l i = Some y ->
  countb f (upd l i x) + (if f y then 1 else 0) = countb f l + (if f x then 1 else 0).
Proof.
  intros H; destruct (upd_split _ _ x _ H) as (a & b & -> & _ & ->).
  rewrite !countb_app; simpl; destruct (f x), (f y); lia.
Qed.

Lemma countb_zero {A} (f : A -> bool) l : countb f l = 0 <-> forall i x, nth_error l i = Some x -> f x = false.
Proof.
  induction l as [|h t IH]; simpl; split.
  - intros _ [|i] x H; discriminate.
  - auto.
  - intros H [|i] x Hx; simpl in Hx.
    + inversion Hx; subst; destruct (f x); auto; lia.
    + eapply IH; eauto. destruct (f h); lia.
  - intros H. rewrite (H 0 h eq_refl). rewrite (proj2 IH); auto. intros i x Hx; exact (H (S i) x Hx).
Qed.

Lemma countb_length_filter {A} (f : A -> bool) l : countb f l = length (filter f l).
Proof. induction l as [|x l IH]; simpl; auto. destruct (f x); simpl; lia. Qed.

Lemma countb_le_length {A} (f : A -> bool) l : countb f l <= length l.
Proof. induction l as [|x l IH]; simpl; auto. destruct (f x); lia. Qed.

Lemma countb_ext {A} (f g : A -> bool) l : (forall x, In x l -> f x = g x) -> countb f l = countb g l.
Proof. induction l as [|x l IH]; simpl; intros H; auto. rewrite (H x) by auto. rewrite IH; auto. Qed.

(** ** Disjoint NoDup append *)
Lemma NoDup_app_iff {A} (l r : list A) :
  NoDup (l ++ r) <-> NoDup l /\ NoDup r /\ (forall x, In x l -> ~ In x r).
Proof.
  induction l as [|h t IH]; simpl.
  - split; [intros H; repeat split; auto; constructor | now intros (_ & H & _)].
  - split.
    + intros H; inversion H as [|? ? Hn Hd]; subst. apply IH in Hd as (H1 & H2 & H3).
      repeat split; auto.
      * constructor; auto. intros Hi; apply Hn, in_or_app; auto.
      * intros x [->|Hx] Hr; [apply Hn, in_or_app; auto | exact (H3 x Hx Hr)].
    + intros (H1 & H2 & H3); inversion H1 as [|? ? Hn Hd]; subst. constructor.
      * intros Hi; apply in_app_or in Hi as [Hi|Hi]; [auto | exact (H3 h (or_introl eq_refl) Hi)].
      * apply IH; repeat split; auto.
Qed.

(** ** Sums *)
Definition zsum (l : list Z) : Z := fold_right Z.add 0%Z l.
Definition nsum (l : list nat) : nat := fold_right Nat.add 0 l.
Lemma zsum_app l r : zsum (l ++ r) = (zsum l + zsum r)%Z.
Proof. induction l as [|x l IH]; simpl; auto. rewrite IH; lia. Qed.
Lemma nsum_app l r : nsum (l ++ r) = nsum l + nsum r.
Proof. induction l as [|x l IH]; simpl; auto. rewrite IH; lia. Qed.
