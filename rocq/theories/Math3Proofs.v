(** Operations on integers, from the operands to the result. *)
From Coq Require Import SpecFloat.
From Verif Require Import RedModel RedProofs.
From Verif Require Import Base Mem MemLemmas Par ConvModel ConvSpec ConvProofs TwoModel TwoSpec TwoProofs Two2Proofs CmpModel CmpProofs Cmp2Proofs MathModel MathSpec MathProofs Math2Proofs.
Local Open Scope Z_scope.

Lemma option_items (os : list (option val)) : forall (P : nat -> val -> Prop),
  (forall i o, nth_error os i = Some o -> exists v, o = Some v /\ P i v) ->
  exists l, os = map Some l /\ forall i v, nth_error l i = Some v -> P i v.
Proof.
  induction os as [|o os IH]; intros P H; [exists []; split; [reflexivity|intros [|i] v E; discriminate]|].
  destruct (H 0%nat o eq_refl) as (v & -> & Pv). destruct (IH (fun i => P (S i))) as (l & -> & Hl); [intros i; apply (H (S i))|].
  exists (v :: l). split; [reflexivity|]. intros [|i] w E; [injection E as <-; assumption|]. now apply (Hl i).
Qed.
Definition n_items {A} (m : smode) (xs ys : list A) : nat := match m with First => length ys | _ => length xs end.
Definition left_item {A} (m : smode) (xs : list A) (i : nat) : option A := nth_error xs (match m with First => 0%nat | _ => i end).
Definition right_item {A} (m : smode) (ys : list A) (i : nat) : option A := nth_error ys (match m with Second => 0%nat | _ => i end).
Definition shaped {A} (m : smode) (xs ys : list A) : Prop :=
  match m with NoScalars => length xs = length ys | First => length xs = 1%nat | Second => length ys = 1%nat end.
Lemma apply2_items (f : val -> val -> option val) m xs ys (P : nat -> val -> Prop) : shaped m xs ys ->
  (forall i x y, left_item m xs i = Some x -> right_item m ys i = Some y -> exists v, f x y = Some v /\ P i v) ->
  exists l, apply2 f m xs ys = Some (map Some l) /\ length l = n_items m xs ys /\ forall i v, nth_error l i = Some v -> P i v.
Proof.
  intros S H. destruct m; cbn in *.
  - destruct (option_items (map2 f xs ys) P) as (l & E & Hl).
    { intros i o Eo. rewrite map2_nth in Eo by assumption. destruct (nth_error xs i) eqn:Ex; [|discriminate]. destruct (nth_error ys i) eqn:Ey; [|discriminate].
      destruct (H i v v0 Ex Ey) as (w & Ew & Pw). exists w. split; [congruence|assumption]. }
    exists l. rewrite S, Nat.eqb_refl, E. split; [reflexivity|]. split; [|assumption]. rewrite <- (map_length Some l), <- E. now rewrite map2_length.
  - destruct xs as [|x [|]]; try discriminate. destruct (option_items (map (f x) ys) P) as (l & E & Hl).
    { intros i o Eo. rewrite nth_error_map in Eo. destruct (nth_error ys i) eqn:Ey; [|discriminate]. destruct (H i x v eq_refl Ey) as (w & Ew & Pw). exists w. cbn in Eo. split; [congruence|assumption]. }
    exists l. rewrite E. split; [reflexivity|]. split; [|assumption]. rewrite <- (map_length Some l), <- E. now rewrite map_length.
  - destruct ys as [|y [|]]; try discriminate. destruct (option_items (map (fun x => f x y) xs) P) as (l & E & Hl).
    { intros i o Eo. rewrite nth_error_map in Eo. destruct (nth_error xs i) eqn:Ex; [|discriminate]. destruct (H i v y Ex eq_refl) as (w & Ew & Pw). exists w. cbn in Eo. split; [congruence|assumption]. }
    exists l. rewrite E. split; [reflexivity|]. split; [|assumption]. rewrite <- (map_length Some l), <- E. now rewrite map_length.
Qed.

Lemma work_gives f ord thr kern p garbage (P : nat -> val -> Prop) : fair ord -> agrees f (mode p) kern -> shaped (mode p) (in1 p) (in2 p) ->
  (forall i x y, left_item (mode p) (in1 p) i = Some x -> right_item (mode p) (in2 p) i = Some y -> exists v, f x y = Some v /\ P i v) ->
  length garbage = n_items (mode p) (in1 p) (in2 p) -> gives (WorkTwo ord thr kern p garbage) (n_items (mode p) (in1 p) (in2 p)) P.
Proof.
  intros Ho K S H L. destruct (apply2_items f _ _ _ P S H) as (l & E & Ll & Hl). exists l. split; [|split; [assumption|]].
  - apply (WorkTwo_agrees f); auto. congruence.
  - intros i I. destruct (nth_error l i) as [v|] eqn:Ev; [|apply nth_error_None in Ev; lia]. exists v. split; [reflexivity|]. now apply Hl.
Qed.

Definition given (at_ : option Z) : bool := match at_ with Some _ => true | None => false end.
(** what the kernel is told about the output array *)
Definition place (o : mop) (at_ : option Z) (a : opnd) (p : prep) : option Z :=
  match a with Arr t _ => if t =? wantedOutType o (mode p) (ty1 p) (ty2 p) then at_ else None | Sca _ => None end.
Lemma Math_work ord thr o at_ a b garbage p k : CheckInputs false (given at_) a b = Some p -> (mode p = First -> at_ = None) ->
  CheckMathOpTwoInputs o (mode p) (ty1 p) (ty2 p) = Some k -> Math ord thr o at_ a b garbage = WorkTwo ord thr (k (place o at_ a p)) p garbage.
Proof.
  intros E N K. unfold Math, given in *. rewrite E, K. cbv zeta. unfold place.
  destruct at_ as [ad|]; [|destruct a; [destruct (t =? _)|]; reflexivity]. destruct (mode p); try (specialize (N eq_refl); discriminate); (destruct a; [destruct (t =? _); reflexivity|reflexivity]).
Qed.
Lemma Check_same o m t d : of_num t = Some d -> CheckMathOpTwoInputs o m t t = kernel_of o d.
Proof. intros E. unfold CheckMathOpTwoInputs. rewrite Z.eqb_refl. cbn [negb]. rewrite andb_false_r. destruct o, m; rewrite E; reflexivity. Qed.
Lemma place_aligned o at_ a p s : match at_ with Some ad => ad mod s = 0 | None => True end -> aligned_to s (place o at_ a p).
Proof. intros A. unfold place, aligned_to. destruct a; [|exact I]. destruct (t =? _); [exact A|exact I]. Qed.

Lemma left_VI m zs i x : left_item m (map VI zs) i = Some x -> x = VI (nth (match m with First => 0%nat | _ => i end) zs 0).
Proof. apply nth_VI. Qed.
Lemma right_VI m zs i x : right_item m (map VI zs) i = Some x -> x = VI (nth (match m with Second => 0%nat | _ => i end) zs 0).
Proof. apply nth_VI. Qed.
Lemma math_ints ord thr o at_ a b garbage p m d xs ys : fair ord -> CheckInputs false (given at_) a b = Some p ->
  same_integers p m (map VI xs) (map VI ys) -> of_num (ty1 p) = Some d -> shaped m xs ys -> (m = First -> at_ = None) ->
  match at_ with Some ad => aligned d ad | None => True end -> (o = BANDNOT -> m = NoScalars) -> exact d o 0 0 <> None ->
  let x i := nth (match m with First => 0%nat | _ => i end) xs 0 in let y i := nth (match m with Second => 0%nat | _ => i end) ys 0 in
  (forall i, (i < n_items m xs ys)%nat -> no_trap d o (x i) (y i)) -> length garbage = n_items m xs ys ->
  gives (Math ord thr o at_ a b garbage) (n_items m xs ys) (fun i v => exists z, exact d o (x i) (y i) = Some z /\ residue d z v).
Proof.
  intros Ho E (M & I1 & I2 & Te & B & d' & Ed' & T1 & T2) Ed S F A R X x y Nt L.
  assert (d' = d) by congruence. subst d'. clear Ed'. pose proof (int_num _ d B Ed) as Fd.
  pose proof (place_aligned o at_ a p (bits d / 8)) as Pl. 
  destruct (good_all (place o at_ a p) m o d Fd) as (k & f & K & Ag & Va); [apply Pl; destruct at_; exact A|assumption|assumption|].
  assert (Kk : CheckMathOpTwoInputs o (mode p) (ty1 p) (ty2 p) = Some k) by (rewrite <- Te, (Check_same o _ _ d Ed); exact K).
  rewrite (Math_work ord thr o at_ a b garbage p k E); [|rewrite M; assumption|assumption].
  replace (n_items m xs ys) with (n_items (mode p) (in1 p) (in2 p)) in * by (rewrite M, I1, I2; destruct m; cbn; now rewrite map_length).
  apply (work_gives f); [assumption|now rewrite M| | |assumption].
  - rewrite M, I1, I2. destruct m; cbn in *; now rewrite ?map_length.
  - rewrite M, I1, I2. intros i u w Hu Hw. pose proof (left_VI _ _ _ _ Hu) as Eu. pose proof (right_VI _ _ _ _ Hw) as Ew. fold (x i) in Eu. fold (y i) in Ew. subst u w.
    assert (Tx : typed d (VI (x i))) by (apply (proj1 (Forall_forall _ _) T1); eapply nth_error_In; exact Hu).
    assert (Ty : typed d (VI (y i))) by (apply (proj1 (Forall_forall _ _) T2); eapply nth_error_In; exact Hw).
    assert (I : (i < n_items (mode p) (in1 p) (in2 p))%nat).
    { rewrite M, I1, I2. destruct m; cbn in *; [apply nth_error_Some; congruence|apply nth_error_Some; congruence|apply nth_error_Some; congruence]. }
    destruct (exact d o (x i) (y i)) as [z|] eqn:Ez.
    + destruct (Va (x i) (y i) z Tx Ty Ez (Nt i I)) as (v & Ev & Rv). exists v. split; [assumption|]. exists z. now split.
    + exfalso. clear - X Ez. destruct o, d; cbn in *; congruence.
Qed.
