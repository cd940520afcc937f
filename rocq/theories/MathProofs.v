(** Kernels for two operands. *)
From Coq Require Import SpecFloat.
From Verif Require Import RedModel RedProofs.
From Verif Require Import Base Mem MemLemmas Par ConvModel ConvSpec ConvProofs TwoModel TwoSpec TwoProofs Two2Proofs CmpModel CmpProofs MathModel MathSpec.
Local Open Scope Z_scope.

Lemma map_some_inj {A} (l l' : list A) : map Some l = map Some l' -> l = l'.
Proof. revert l'. induction l as [|x l IH]; intros [|y l'] E; cbn in E; try discriminate; [reflexivity|]. injection E as -> E. f_equal. now apply IH. Qed.
Lemma all_some_id {A} (l : list A) : all_some (map Some l) = Some l.
Proof. rewrite (all_some_map _ (fun x => x)); [now rewrite map_id|]. reflexivity. Qed.
Lemma apply2_some {A} (g : val -> val -> A) m xs ys r : apply2 (fun x y => Some (g x y)) m xs ys = Some (map Some r) -> apply2 g m xs ys = Some r.
Proof.
  intros R. destruct m; cbn in *.
  - destruct (length xs =? length ys)%nat; [|discriminate]. assert (E : map2 (fun x y => Some (g x y)) xs ys = map Some r) by congruence.
    f_equal. apply map_some_inj. rewrite <- E. now rewrite map_map2.
  - destruct xs as [|x [|]]; try discriminate. assert (E : map (fun y => Some (g x y)) ys = map Some r) by congruence.
    f_equal. apply map_some_inj. rewrite <- E. now rewrite map_map.
  - destruct ys as [|y [|]]; try discriminate. assert (E : map (fun x => Some (g x y)) xs = map Some r) by congruence.
    f_equal. apply map_some_inj. rewrite <- E. now rewrite map_map.
Qed.

(** a kernel that agrees with an operation on items, which may trap *)
Definition agrees (f : val -> val -> option val) (m : smode) (k : smode -> list val -> list val -> option (list val)) : Prop :=
  forall xs ys r, apply2 f m xs ys = Some (map Some r) -> k m xs ys = Some r.

Lemma WorkTwo_agrees (f : val -> val -> option val) ord thr kern p garbage l : fair ord -> agrees f (mode p) kern ->
  apply2 f (mode p) (in1 p) (in2 p) = Some (map Some l) -> length garbage = length l -> WorkTwo ord thr kern p garbage = Done l.
Proof.
  intros Ho K R L. set (g := fun x y => match f x y with Some v => v | None => VI 0 end).
  assert (G : apply2 g (mode p) (in1 p) (in2 p) = Some l).
  { unfold g. clear - R. destruct (mode p); cbn in *.
    - destruct (length (in1 p) =? length (in2 p))%nat; [|discriminate]. assert (E : map2 f (in1 p) (in2 p) = map Some l) by congruence.
      f_equal. transitivity (map (fun o : option val => match o with Some v => v | None => VI 0 end) (map2 f (in1 p) (in2 p))); [now rewrite map_map2|].
      rewrite E, map_map. apply map_id.
    - destruct (in1 p) as [|x [|]]; try discriminate. assert (E : map (f x) (in2 p) = map Some l) by congruence.
      f_equal. transitivity (map (fun o : option val => match o with Some v => v | None => VI 0 end) (map (f x) (in2 p))); [now rewrite map_map|].
      rewrite E, map_map. apply map_id.
    - destruct (in2 p) as [|y [|]]; try discriminate. assert (E : map (fun x => f x y) (in1 p) = map Some l) by congruence.
      f_equal. transitivity (map (fun o : option val => match o with Some v => v | None => VI 0 end) (map (fun x => f x y) (in1 p))); [now rewrite map_map|].
      rewrite E, map_map. apply map_id. }
  rewrite <- (WorkTwo_apply g ord thr (apply2 g) p garbage l Ho (fun _ _ _ H => H) G L).
  unfold WorkTwo. cbv zeta. f_equal.
  match goal with |- match all_some ?a with _ => _ end = match all_some ?b with _ => _ end => assert (E : a = b); [|now rewrite E] end.
  apply map_ext. intros [s k]. cbn [fst snd]. f_equal.
  rewrite (apply2_block _ _ _ _ _ s k G). apply K. rewrite (apply2_block _ _ _ _ _ s k R). now rewrite slice_map.
Qed.

Lemma Slow_agrees {E} (get : val -> E) f at_ m : agrees (fun x y => f (get x) (get y)) m (SimpleMathOpSlow get f at_).
Proof.
  intros xs ys r R. unfold SimpleMathOpSlow. cbv zeta. destruct m; cbn in R.
  - destruct (length xs =? length ys)%nat; [|discriminate]. rewrite map2_map. assert (E1 : map2 (fun x y => f (get x) (get y)) xs ys = map Some r) by congruence.
    rewrite E1. apply all_some_id.
  - destruct xs as [|x [|]]; try discriminate. cbn [map]. rewrite map_map. assert (E1 : map (fun y => f (get x) (get y)) ys = map Some r) by congruence. rewrite E1. apply all_some_id.
  - destruct ys as [|y [|]]; try discriminate. cbn [map]. rewrite map_map. assert (E1 : map (fun x => f (get x) (get y)) xs = map Some r) by congruence. rewrite E1. apply all_some_id.
Qed.

Lemma vec_scalar_ok {E} sym w (f : E -> E -> E) v xs y : (0 < w)%nat -> lanewise w v f -> (sym = true -> forall a b, f a b = f b a) ->
  vec_scalar sym w f v xs y = map (fun x => f x y) xs.
Proof.
  intros W L S. unfold vec_scalar. destruct sym; [|now apply vec_second].
  rewrite <- (map_ext (f y) (fun x => f x y)) by (intros; now apply S). rewrite <- (map_ext (f y) (fun x => f x y)) by (intros; now apply S). now apply vec_first.
Qed.

Lemma babylen_ok w size a n : 0 < size -> Z.of_nat w * size = 32 -> a mod size = 0 ->
  let babylen := if Z.land a 31 =? 0 then 0 else (32 - Z.land a 31) / size in
  let k := if babylen <=? Z.of_nat n then Z.to_nat babylen else 0%nat in
  (w <=? n - k)%nat && negb ((a + Z.of_nat k * size) mod 32 =? 0) = false.
Proof.
  intros S W A. cbv zeta. change 31 with (Z.ones 5). rewrite Z.land_ones by lia. change (2 ^ 5) with 32.
  assert (Aw : a mod 32 mod size = 0).
  { rewrite <- W. rewrite (Z.mul_comm (Z.of_nat w)). rewrite Z.rem_mul_r by lia. rewrite A. rewrite Z.add_0_l, Z.mul_comm. apply Z.mod_mul. lia. }
  pose proof (Z.mod_pos_bound a 32 ltac:(lia)) as B. set (b := a mod 32) in *.
  assert (Eb : b = size * (b / size)) by (pose proof (Z.div_mod b size ltac:(lia)); lia).
  assert (E32 : 32 = size * Z.of_nat w) by lia.
  destruct (Z.eqb_spec b 0) as [B0|B0].
  - replace (0 <=? Z.of_nat n) with true by (symmetry; apply Z.leb_le; lia). cbn [Z.to_nat]. change (Z.of_nat 0 * size) with 0. rewrite Z.add_0_r. fold b. rewrite B0. cbn. apply andb_false_r.
  - assert (Eq : (32 - b) / size = Z.of_nat w - b / size).
    { rewrite E32, Eb at 1. rewrite <- Z.mul_sub_distr_l. rewrite Z.mul_comm. apply Z.div_mul. lia. }
    rewrite Eq. assert (0 < b / size) by nia. assert (b / size < Z.of_nat w) by nia.
    destruct (Z.leb_spec (Z.of_nat w - b / size) (Z.of_nat n)).
    + rewrite Z2Nat.id by lia. replace ((a + (Z.of_nat w - b / size) * size) mod 32) with 0; [cbn; apply andb_false_r|].
      pose proof (Z.div_mod a 32 ltac:(lia)) as D. fold b in D. replace (a + (Z.of_nat w - b / size) * size) with ((a / 32 + 1) * 32) by nia.
      symmetry. apply Z.mod_mul. lia.
    + replace (w <=? n - 0)%nat with false by (symmetry; apply Nat.leb_gt; lia). reflexivity.
Qed.

Definition aligned_to (size : Z) (at_ : option Z) : Prop := match at_ with Some a => a mod size = 0 | None => True end.
Lemma Fast_agrees {E} sym w size (get : val -> E) (put : E -> val) f v at_ m : (0 < w)%nat -> 0 < size -> Z.of_nat w * size = 32 -> aligned_to size at_ ->
  lanewise w v f -> (sym = true -> forall a b, f a b = f b a) ->
  agrees (fun x y => Some (put (f (get x) (get y)))) m (SimpleMathOpFast sym w size get put f v at_).
Proof.
  intros W S WS A L Sy xs ys r R. apply apply2_some in R. unfold SimpleMathOpFast. cbv zeta. destruct m; cbn in R.
  - destruct (Nat.eqb_spec (length xs) (length ys)) as [Le|]; [|discriminate]. rewrite vec_two; [|assumption|now rewrite !map_length|assumption]. cbn [option_map].
    rewrite map2_map, map_map2. exact R.
  - destruct xs as [|x [|]]; try discriminate. cbn [map]. rewrite vec_first by assumption. cbn [option_map]. rewrite !map_map. exact R.
  - destruct ys as [|y [|]]; try discriminate. cbn [map]. destruct at_ as [a|].
    + cbn in A. rewrite (babylen_ok w size a (length (map get xs)) S WS A). cbn [option_map]. rewrite vec_scalar_ok by assumption.
      rewrite <- map_app. rewrite firstn_skipn. rewrite !map_map. exact R.
    + cbn [option_map]. rewrite vec_scalar_ok by assumption. rewrite !map_map. exact R.
Qed.
Lemma Reverse_agrees {E} w size (get : val -> E) (put : E -> val) f v at_ : (0 < w)%nat -> lanewise w v f ->
  agrees (fun x y => Some (put (f (get y) (get x)))) NoScalars (SimpleMathOpFastReverse w size get put f v at_).
Proof.
  intros W L xs ys r R. apply apply2_some in R. cbn in R. destruct (Nat.eqb_spec (length xs) (length ys)) as [Le|]; [|discriminate].
  cbn [SimpleMathOpFastReverse SimpleMathOpFast]. unfold SimpleMathOpFast. cbv zeta. rewrite vec_two; [|assumption|now rewrite !map_length|assumption]. cbn [option_map].
  rewrite map2_map, map_map2. rewrite map2_swap. exact R.
Qed.
Lemma FastDouble_agrees at_ m : agrees (fun x y => Some (VF (DivOp (rd true 32 x) (rd true 32 y)))) m (SimpleMathOpFastDouble at_).
Proof.
  intros xs ys r R. apply apply2_some in R. unfold SimpleMathOpFastDouble. cbv zeta. destruct m; cbn [apply2] in R.
  - destruct (Nat.eqb_spec (length xs) (length ys)) as [Le|]; [|discriminate]. rewrite (vec_two 4 _ DivOp); [|lia|now rewrite !map_length|].
    + cbn [option_map]. rewrite map2_map, map_map2. exact R.
    + intros x y _ _. now rewrite map2_map.
  - destruct xs as [|x [|]]; try discriminate. cbn [map option_map]. rewrite !map_map. exact R.
  - destruct ys as [|y [|]]; try discriminate. cbn [map option_map]. rewrite !map_map. exact R.
Qed.
