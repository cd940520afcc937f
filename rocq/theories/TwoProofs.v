(** Loops over two operands: vector steps, blocks. *)
From Coq Require Import SpecFloat.
From Verif Require Import RedModel RedProofs.
From Verif Require Import Base Mem MemLemmas Par ConvModel ConvSpec TwoModel.
Local Open Scope Z_scope.

Lemma map2_length {A B C} (f : A -> B -> C) xs ys : length xs = length ys -> length (map2 f xs ys) = length xs.
Proof. intros E. unfold map2. rewrite map_length, combine_length. lia. Qed.
Lemma map2_cons {A B C} (f : A -> B -> C) x xs y ys : map2 f (x :: xs) (y :: ys) = f x y :: map2 f xs ys.
Proof. reflexivity. Qed.
Lemma map2_app {A B C} (f : A -> B -> C) a b c d : length a = length c -> map2 f (a ++ b) (c ++ d) = map2 f a c ++ map2 f b d.
Proof. revert c. induction a as [|x a IH]; intros [|y c] E; cbn in E; try discriminate; [reflexivity|]. cbn. f_equal. apply IH. lia. Qed.
Lemma map2_concat {A B C} (f : A -> B -> C) R S : Forall2 (fun r s => length r = length s) R S ->
  map2 f (concat R) (concat S) = concat (map2 (map2 f) R S).
Proof. induction 1 as [|r s R S E F IH]; [reflexivity|]. cbn [concat]. rewrite map2_app by assumption. rewrite map2_cons. cbn [concat]. now rewrite IH. Qed.
Lemma map2_ext {A B C} (f g : A -> B -> C) xs ys : (forall x y, In x xs -> In y ys -> f x y = g x y) -> map2 f xs ys = map2 g xs ys.
Proof.
  intros H. unfold map2. apply map_ext_in. intros [x y] I. cbn. apply H; [eapply in_combine_l|eapply in_combine_r]; eassumption.
Qed.
Lemma map2_map {A B A' B' C} (f : A -> B -> C) (g : A' -> A) (h : B' -> B) xs ys : map2 f (map g xs) (map h ys) = map2 (fun x y => f (g x) (h y)) xs ys.
Proof. revert ys. induction xs as [|x xs IH]; intros [|y ys]; try reflexivity. cbn. f_equal. apply IH. Qed.
Lemma map_map2 {A B C D} (g : C -> D) (f : A -> B -> C) xs ys : map g (map2 f xs ys) = map2 (fun x y => g (f x y)) xs ys.
Proof. unfold map2. now rewrite map_map. Qed.
Lemma map2_repeat_l {A B C} (f : A -> B -> C) x ys : map2 f (repeat x (length ys)) ys = map (f x) ys.
Proof. induction ys as [|y ys IH]; [reflexivity|]. cbn. f_equal. apply IH. Qed.
Lemma map2_repeat_r {A B C} (f : A -> B -> C) xs y : map2 f xs (repeat y (length xs)) = map (fun x => f x y) xs.
Proof. induction xs as [|x xs IH]; [reflexivity|]. cbn. f_equal. apply IH. Qed.
Lemma map2_nth {A B C} (f : A -> B -> C) xs : forall ys i, length xs = length ys ->
  nth_error (map2 f xs ys) i = match nth_error xs i, nth_error ys i with Some x, Some y => Some (f x y) | _, _ => None end.
Proof.
  induction xs as [|x xs IH]; intros [|y ys] [|i] E; cbn in *; try discriminate; auto.
  apply IH. lia.
Qed.

Lemma rows_length {X} c (l : list X) : length (rows c l) = (length l / c)%nat.
Proof. unfold rows. now rewrite map_length, seq_length. Qed.
Lemma Forall2_same_len {X Y} c R S : length R = length S -> Forall (fun r : list X => length r = c) R -> Forall (fun r : list Y => length r = c) S ->
  Forall2 (fun r s => length r = length s) R S.
Proof.
  revert S. induction R as [|r R IH]; intros [|s S] E F G; cbn in E; try discriminate; constructor; inversion F; inversion G; subst; [lia|]. apply IH; [lia|assumption..].
Qed.

(** a vector step that works lane by lane *)
Definition lanewise {E A} (w : nat) (v : list E -> list E -> list A) (f : E -> E -> A) : Prop :=
  forall x y, length x = w -> length y = w -> v x y = map2 f x y.

Lemma vec_two {E A} w (v : list E -> list E -> list A) f xs ys : (0 < w)%nat -> length xs = length ys -> lanewise w v f ->
  concat (map2 v (rows w xs) (rows w ys)) ++ map2 f (rest w xs) (rest w ys) = map2 f xs ys.
Proof.
  intros W L H. rewrite <- (rows_app w xs W) at 3. rewrite <- (rows_app w ys W) at 3.
  assert (F : Forall2 (fun r s : list E => length r = length s) (rows w xs) (rows w ys)).
  { apply (Forall2_same_len w); [rewrite !rows_length; congruence|now apply rows_len..]. }
  rewrite map2_app.
  - f_equal. rewrite map2_concat by assumption. f_equal. apply map2_ext. intros x y Ix Iy.
    apply H; [pose proof (rows_len w xs W) as G|pose proof (rows_len w ys W) as G]; rewrite Forall_forall in G; now apply G.
  - clear -F. induction F; [reflexivity|]. cbn. rewrite !app_length. lia.
Qed.
Lemma vec_first {E A} w (v : list E -> list E -> list A) f x ys : (0 < w)%nat -> lanewise w v f ->
  concat (map (v (repeat x w)) (rows w ys)) ++ map (f x) (rest w ys) = map (f x) ys.
Proof.
  intros W H. rewrite <- (rows_app w ys W) at 3. rewrite map_app, concat_map. f_equal. f_equal. apply map_ext_in. intros r I.
  assert (L : length r = w) by (pose proof (rows_len w ys W) as G; rewrite Forall_forall in G; now apply G in I).
  rewrite H by first [apply repeat_length|assumption]. rewrite <- L at 1. apply map2_repeat_l.
Qed.
Lemma vec_second {E A} w (v : list E -> list E -> list A) f xs y : (0 < w)%nat -> lanewise w v f ->
  concat (map (fun r => v r (repeat y w)) (rows w xs)) ++ map (fun x => f x y) (rest w xs) = map (fun x => f x y) xs.
Proof.
  intros W H. rewrite <- (rows_app w xs W) at 3. rewrite map_app, concat_map. f_equal. f_equal. apply map_ext_in. intros r I.
  assert (L : length r = w) by (pose proof (rows_len w xs W) as G; rewrite Forall_forall in G; now apply G in I).
  rewrite H by first [apply repeat_length|assumption]. rewrite <- L at 1. apply map2_repeat_r.
Qed.

Lemma map2_swap {A B C} (f : A -> B -> C) xs : forall ys, map2 f xs ys = map2 (fun y x => f x y) ys xs.
Proof. induction xs as [|x xs IH]; intros [|y ys]; try reflexivity. cbn. f_equal. apply IH. Qed.

Lemma firstn_map2 {A B C} (f : A -> B -> C) n : forall xs ys, firstn n (map2 f xs ys) = map2 f (firstn n xs) (firstn n ys).
Proof. induction n as [|n IH]; intros [|x xs] [|y ys]; try reflexivity. cbn. f_equal. apply IH. Qed.
Lemma skipn_map2 {A B C} (f : A -> B -> C) n : forall xs ys, skipn n (map2 f xs ys) = map2 f (skipn n xs) (skipn n ys).
Proof.
  induction n as [|n IH]; intros [|x xs] [|y ys]; try reflexivity; cbn [skipn]; [now destruct (skipn n xs)|]. apply IH.
Qed.
Lemma slice_map2 {A B C} (f : A -> B -> C) s l xs ys : slice s l (map2 f xs ys) = map2 f (slice s l xs) (slice s l ys).
Proof. unfold slice. now rewrite skipn_map2, firstn_map2. Qed.
Lemma slice_map {A B} (f : A -> B) s l xs : slice s l (map f xs) = map f (slice s l xs).
Proof. unfold slice. now rewrite skipn_map, firstn_map. Qed.

(** ** Kernels *)
Definition apply2 {A} (f : val -> val -> A) (m : smode) (xs ys : list val) : option (list A) :=
  match m with
  | NoScalars => if (length xs =? length ys)%nat then Some (map2 f xs ys) else None
  | First => match xs with [x] => Some (map (f x) ys) | _ => None end
  | Second => match ys with [y] => Some (map (fun x => f x y) xs) | _ => None end
  end.

(** ** Blocks *)
Lemma slice_length {A} s l (xs : list A) : (s + l <= length xs)%nat -> length (slice s l xs) = l.
Proof. intros H. unfold slice. rewrite firstn_length, skipn_length. lia. Qed.
Lemma apply2_block {A} (f : val -> val -> A) m xs ys l s k : apply2 f m xs ys = Some l ->
  apply2 f m (block1 m s k xs) (block2 m s k ys) = Some (slice s k l).
Proof.
  intros R. destruct m; cbn in *.
  - destruct (Nat.eqb_spec (length xs) (length ys)) as [L|]; [|discriminate]. injection R as <-. rewrite slice_map2.
    unfold slice. rewrite !firstn_length, !skipn_length, L, Nat.eqb_refl. reflexivity.
  - destruct xs as [|x [|]]; try discriminate. injection R as <-. now rewrite slice_map.
  - destruct ys as [|y [|]]; try discriminate. injection R as <-. now rewrite slice_map.
Qed.
Lemma apply2_length {A} (f : val -> val -> A) m xs ys l : apply2 f m xs ys = Some l ->
  length l = match m with First => length ys | _ => length xs end.
Proof.
  intros R. destruct m; cbn in *.
  - destruct (Nat.eqb_spec (length xs) (length ys)) as [L|]; [|discriminate]. injection R as <-. now apply map2_length.
  - destruct xs as [|x [|]]; try discriminate. injection R as <-. now rewrite map_length.
  - destruct ys as [|y [|]]; try discriminate. injection R as <-. now rewrite map_length.
Qed.
Lemma slice_nth {A} (l : list A) d s k : (s + k <= length l)%nat -> slice s k l = map (fun i => nth i l d) (seq s k).
Proof.
  intros H. apply list_ext. intros i. rewrite nth_error_map, nth_error_seq. unfold slice.
  rewrite nth_error_firstn. destruct (Nat.ltb_spec i k); [|reflexivity].
  rewrite nth_error_skipn. cbn. apply nth_error_nth'. lia.
Qed.
Lemma chunk_calls_in thr c n s k : (0 < c)%nat -> In (s, k) (chunk_calls thr c n) -> (s + k <= n)%nat.
Proof. intros C I. destruct thr; cbn in I; [apply chunks_in in I; [lia|assumption]|]. destruct I as [E|[]]. injection E as <- <-. lia. Qed.

Lemma WorkTwo_apply {A} (f : val -> val -> A) ord thr kern p garbage l : fair ord ->
  (forall xs ys r, apply2 f (mode p) xs ys = Some r -> kern (mode p) xs ys = Some r) ->
  apply2 f (mode p) (in1 p) (in2 p) = Some l -> length garbage = length l ->
  WorkTwo ord thr kern p garbage = Done l.
Proof.
  intros Ho K R L. unfold WorkTwo. cbv zeta.
  replace (match mode p with First => length (in2 p) | _ => length (in1 p) end) with (length l)
    by (rewrite (apply2_length _ _ _ _ _ R); now destruct (mode p)).
  rewrite (all_some_map _ (fun call => enum 1 (Z.of_nat (fst call)) (slice (fst call) (snd call) l))).
  2: { intros [s k] _. cbn [fst snd]. rewrite (K _ _ _ (apply2_block _ _ _ _ _ s k R)). reflexivity. }
  destruct l as [|d l0] eqn:El.
  - destruct garbage; [|discriminate].
    assert (Z0 : concat (map (fun call => enum 1 (Z.of_nat (fst call)) (slice (fst call) (snd call) (@nil A))) (chunk_calls thr CHUNK 0)) = []).
    { induction (chunk_calls thr CHUNK 0) as [|[s k] r IH]; [reflexivity|]. cbn [map concat fst snd]. rewrite IH. unfold slice. rewrite skipn_nil, firstn_nil. reflexivity. }
    cbn [length]. rewrite Z0. assert (E : ord (Z * A)%type [] = []) by (apply Permutation_nil, Permutation_sym, Ho). now rewrite E.
  - rewrite <- El in *. assert (E : map (fun call : nat * nat => enum 1 (Z.of_nat (fst call)) (slice (fst call) (snd call) l)) (chunk_calls thr CHUNK (length l))
      = map (fun call : nat * nat => map (fun i => (Z.of_nat i, nth i l d)) (seq (fst call) (snd call))) (chunk_calls thr CHUNK (length l))).
    { apply map_ext_in. intros [s k] I. cbn [fst snd]. rewrite (slice_nth l d) by (eapply chunk_calls_in; [|exact I]; unfold CHUNK; lia). now apply enum_map_seq. }
    rewrite E. rewrite (chunk_calls_map thr CHUNK (length l) (fun i => (Z.of_nat i, nth i l d))) by (unfold CHUNK; lia).
    rewrite (writes_enum _ l); [reflexivity| |assumption].
    rewrite <- (enum_map_seq _ _ 0%nat 0) by reflexivity. rewrite map_nth_seq. apply Ho.
Qed.
