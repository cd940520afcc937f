(** Proofs about operations on the items of one array: whole arrays. *)
From Coq Require Import Reals Lra SpecFloat.
From Flocq Require Import Core BinarySingleNaN.
From Verif Require Import RedModel.
From Verif Require Import Base Mem MemLemmas ConvModel ConvSpec ConvProofs TwoModel CmpModel MathModel MathSpec UnaryModel UnarySpec UnaryProofs Unary2Proofs.
From Verif Require Import LayoutModel LayoutSpec LayoutProofs.
From Verif Require Import StackModel StackProofs OneModel OneSpec OneProofs One2Proofs.
Local Open Scope Z_scope.

Lemma type_trait t n : type_number t n -> get_type_trait n = Some (Number t) /\ In t loop_types /\ n <> 0.
Proof.
  unfold type_number. intros H. repeat (destruct H as [E|H]; [injection E as <- <-; split; [reflexivity|]; split; [cbn; auto 12|discriminate]|]). destruct H.
Qed.
Lemma op_trait u t : right_ops u t -> exists o, get_op_trait u = Some o /\ value_return o = true.
Proof.
  unfold right_ops. destruct (is_float t); [intros H; pick H; eexists; split; reflexivity|]. intros [[-> _]|[->|H]]; [..|pick H]; eexists; split; reflexivity.
Qed.
Lemma load_isbyte off n m x : Forall isbyte m -> load off n m = Some x -> Forall isbyte x.
Proof. intros H L. apply load_inv in L as (a & b & -> & _). apply Forall_app in H as [_ H]. now apply Forall_app in H as [H _]. Qed.
Lemma size_pos t : In t loop_types -> 0 < size t. Proof. intros T. pick T; reflexivity. Qed.

(* every item is computed, and nothing else is changed *)
Lemma values_ok c u o t im ib s n om ob inner stride_out so : get_op_trait u = Some o -> In t loop_types -> right_ops u t -> inner * stride_out = so ->
  inside t im ib s n -> (forall i x, 0 <= i < n -> item_at t im ib s i x -> right_item u t x) -> (forall i, 0 <= i < n -> 0 <= ob + i * so /\ ob + i * so + size t <= len om) -> 0 <= n ->
  (s = size t -> so = size t) -> size t <= Z.abs so \/ n <= 1 ->
  exists om', walk_data_array c o (Number t) inner n s stride_out im ib om ob = Finished om' /\ len om' = len om /\
    (forall i, 0 <= i < n -> exists x y, item_at t im ib s i x /\ item_at t om' ob so i y /\ computed u t x y) /\
    forall p, 0 <= p -> (forall i, 0 <= i < n -> p < ob + i * so \/ ob + i * so + size t <= p) -> nth_error om' (Z.to_nat p) = nth_error om (Z.to_nat p).
Proof.
  intros O T Ro So [By In_] Ri Rm N Pk Ap. pose proof (size_pos t T) as Ps.
  destruct (walk_ok c o t im ib s n ob inner stride_out so (computed u t) T So) with (fuel := S (Z.to_nat n)) (om := om) (off := 0) as (om' & W & [K1 K2] & G); auto; try lia.
  - intros i I. destruct (In_ i I) as [A B]. destruct (load_ok (ib + i * s) (size t) im) as (x & X & Lx); try lia. exists x. split; auto. split; auto. eapply item_ok; eauto. eapply load_isbyte; eauto.
  - intros v Sm W Es. split; auto. destruct (wide_ok u o t v O T Ro W) as (g & -> & G1 & G2). exists g. split; auto. split; auto.
    intros i x I X. apply G2; [eapply load_isbyte; eauto|]. now apply load_inv in X as (_ & _ & _ & _ & X).
  - exists om'. split; [exact W|]. split; auto.
Qed.

(** ** New arrays *)
Lemma offset_same l idx : packed_array l -> valid (dims l) idx -> offset (strides l) idx = Z.of_nat (new_pos (f_flag (isz l) (dims l) (strides l)) (dims l) idx) * isz l.
Proof.
  intros ([E|E] & P & N) V; unfold new_pos; rewrite E.
  - destruct (f_flag _ _ _) eqn:F; [apply offset_flag; auto; apply cstrides_length|now apply offset_C].
  - rewrite flag_F. now apply offset_F.
Qed.
Lemma fresh_len l junk : 0 <= isz l -> len (a_mem (fresh l junk)) = Z.of_nat (prod (dims l)) * isz l.
Proof. intros H. unfold fresh, len. cbn [a_mem]. rewrite map_length, seq_length, Nat2Z.inj_mul, Z2Nat.id; auto. Qed.
Lemma new_array_ok c junk u t n a : type_number t n -> right_ops u t -> isz (a_lay a) = size t -> packed_array (a_lay a) ->
  inside t (a_mem a) (a_base a) (size t) (Z.of_nat (prod (dims (a_lay a)))) ->
  (forall i x, 0 <= i < Z.of_nat (prod (dims (a_lay a))) -> item_at t (a_mem a) (a_base a) (size t) i x -> right_item u t x) ->
  exists r, process_one_input c junk u n a None = NewArray r /\ dims (a_lay r) = dims (a_lay a) /\ isz (a_lay r) = size t /\ len (a_mem r) = Z.of_nat (prod (dims (a_lay a))) * size t /\
    forall idx, valid (dims (a_lay a)) idx -> exists x y,
      load (a_base a + offset (strides (a_lay a)) idx) (size t) (a_mem a) = Some x /\ load (a_base r + offset (strides (a_lay r)) idx) (size t) (a_mem r) = Some y /\ computed u t x y.
Proof.
  intros Tn Ro Sz Pa Ins Ri. destruct (type_trait t n Tn) as (Tt & T & _). destruct (op_trait u t Ro) as (o & O & Vr). pose proof (size_pos t T) as Ps.
  destruct a as [l ab am]. cbn [a_lay a_base a_mem] in *. set (N := prod (dims l)) in *. destruct Pa as (Pl & Pp & Pn).
  assert (G : GetStridesAndContig l = (0, size t)). { destruct l as [ds ss sz]. cbn [dims strides isz] in *. subst sz. destruct Pl; [apply contig_C|apply contig_F]; auto. }
  set (f := if (length (dims l) <=? 1)%nat then false else f_flag (size t) (dims l) (strides l)).
  set (r := fresh (new_array f (dims l) (size t)) junk).
  assert (Er : (if (length (dims l) <=? 1)%nat then fresh (new_array false [N] (size t)) junk else new_like (Arr l ab am) (size t) junk) = r).
  { unfold r, f, new_like. cbn [a_lay]. rewrite Sz. destruct (Nat.leb_spec (length (dims l)) 1) as [L|L]; auto. f_equal. f_equal. unfold N. destruct (dims l) as [|d [|]]; cbn in L; try lia; [easy|]. cbn. f_equal. lia. }
  assert (Lr : len (a_mem r) = Z.of_nat N * size t) by (unfold r; apply fresh_len; cbn; lia).
  destruct (values_ok c u o t am ab (size t) (Z.of_nat N) (a_mem r) 0 1 (size t) (size t)) as (om' & W & L & It & _); auto; try lia. { intros i I. rewrite Lr. nia. }
  exists (Arr (a_lay r) 0 om'). split.
  { unfold process_one_input. cbn [a_lay a_base a_mem]. rewrite G, O, Tt. cbn [Z.eqb]. replace (item_of (Number t) o (isz l)) with (size t) by (unfold item_of; now rewrite Vr). fold N. rewrite Er. change (a_base r) with 0. rewrite W. reflexivity. }
  cbn [a_lay a_base a_mem]. split; [reflexivity|]. split; [reflexivity|]. split; [congruence|]. intros idx V.
  assert (E : offset (strides l) idx = Z.of_nat (new_pos f (dims l) idx) * size t).
  { unfold f. destruct (Nat.leb_spec (length (dims l)) 1) as [L1|L1].
    - destruct (dims l) as [|d [|]] eqn:Ed; cbn in L1; try lia; [easy|]. rewrite Sz in Pl. unfold new_pos. destruct Pl as [-> | ->]; [now apply offset_C|].
      inversion V as [|i d' ? ? Hi V']; subst. inversion V'; subst. cbn. lia.
    - rewrite <- Sz. apply offset_same; auto. split; auto. }
  destruct (new_pos_ok f (dims l) idx (size t) V) as [E2 Lt]. destruct (It (Z.of_nat (new_pos f (dims l) idx))) as (x & y & X & Y & C); [unfold N; lia|].
  exists x, y. unfold item_at in *. rewrite E. split; auto. split; auto. unfold r. cbn [fresh a_lay]. now rewrite E2.
Qed.

(** ** A given array *)
Lemma strides_1 l d s : dims l = [d] -> strides l = [s] -> GetStridesAndContig l = (0, if (1 <? d)%nat then s else isz l).
Proof. intros D S. unfold GetStridesAndContig. rewrite D, S. reflexivity. Qed.
Lemma given_ok c junk u t n a r d s so : type_number t n -> right_ops u t -> dims (a_lay a) = [d] -> strides (a_lay a) = [s] -> isz (a_lay a) = size t ->
  dims (a_lay r) = [d] -> strides (a_lay r) = [so] -> isz (a_lay r) = size t ->
  inside t (a_mem a) (a_base a) s (Z.of_nat d) -> (forall i x, 0 <= i < Z.of_nat d -> item_at t (a_mem a) (a_base a) s i x -> right_item u t x) ->
  inside t (a_mem r) (a_base r) so (Z.of_nat d) -> size t <= Z.abs so -> (s = size t -> so = size t) ->
  exists m, process_one_input c junk u n a (Some (r, n)) = NoneFor (Some m) /\ len m = len (a_mem r) /\
    (forall i, 0 <= i < Z.of_nat d -> exists x y, item_at t (a_mem a) (a_base a) s i x /\ item_at t m (a_base r) so i y /\ computed u t x y) /\
    forall p, 0 <= p -> (forall i, 0 <= i < Z.of_nat d -> p < a_base r + i * so \/ a_base r + i * so + size t <= p) -> nth_error m (Z.to_nat p) = nth_error (a_mem r) (Z.to_nat p).
Proof.
  intros Tn Ro Da Sa Za Dr Sr Zr Ins Ri Out Ap Pk. destruct (type_trait t n Tn) as (Tt & T & _). destruct (op_trait u t Ro) as (o & O & Vr).
  set (s' := if (1 <? d)%nat then s else size t). set (so' := if (1 <? d)%nat then so else size t).
  assert (Mul : forall i b b', 0 <= i < Z.of_nat d -> i * (if (1 <? d)%nat then b else b') = i * b) by (intros i b b' I; destruct (Nat.ltb_spec 1 d); auto; assert (i = 0) as -> by lia; lia).
  assert (M1 : forall i, 0 <= i < Z.of_nat d -> i * s' = i * s) by (intros; now apply Mul). assert (M2 : forall i, 0 <= i < Z.of_nat d -> i * so' = i * so) by (intros; now apply Mul).
  destruct (values_ok c u o t (a_mem a) (a_base a) s' (Z.of_nat d) (a_mem r) (a_base r) 1 so' so') as (m & W & L & It & Fr); auto; try lia.
  - destruct Ins as [B I]. split; auto. intros i Hi. rewrite M1 by auto. apply I; auto.
  - intros i x Hi. unfold item_at. rewrite M1 by auto. apply Ri; auto.
  - destruct Out as [_ I]. intros i Hi. rewrite M2 by auto. apply I; auto.
  - unfold s', so'. destruct (1 <? d)%nat; auto.
  - unfold so'. destruct (Nat.ltb_spec 1 d); [auto|right; lia].
  - exists m. split.
    { unfold process_one_input. rewrite (strides_1 (a_lay a) d s) by auto. rewrite Za, O, Tt, Vr, Da, Dr. cbn [Z.eqb negb length prod fold_right]. rewrite !Z.eqb_refl. cbn [negb].
      rewrite (strides_1 (a_lay r) d so), Zr by auto. rewrite Nat.mul_1_r. fold s' so'. cbn [Z.eqb negb]. change (Z.of_nat 1) with 1. rewrite W. reflexivity. }
    split; auto. split.
    + intros i Hi. destruct (It i Hi) as (x & y & X & Y & C). exists x, y. unfold item_at in *. rewrite M1 in X by auto. rewrite M2 in Y by auto. auto.
    + intros p P H. apply Fr; auto. intros i Hi. rewrite M2 by auto. now apply H.
Qed.

(** ** Tests *)
Lemma mask_len t b : In t loop_types -> len (mask t b) = size t. Proof. intros T. unfold mask. rewrite len_repeat. pick T; reflexivity. Qed.
Lemma answered_mask t P b : (b = true <-> P) -> answered P (mask t b).
Proof.
  intros H. unfold mask. destruct b; [left|right]; (split; [intuition discriminate|]); apply Forall_forall; intros x X; now apply repeat_spec in X.
Qed.
Lemma tested_ok o t v P : is_float t = true \/ In o [not_op; isnan_op; isnotfinite_op; isinf_op; isnotnormal_op; isnanorzero_op] -> typed t v -> tested o t v = Some P ->
  exists g b, (forall c x, dec t x = v -> calculate c o t x = Some (mask t b)) /\ (b = true <-> P) /\ (forall w, simd_implementation o = true -> wide o t = Some w -> w = each_lane t (fun v => mask t (g (as_f v))) /\ g (as_f v) = b).
Proof.
  intros Ok Ty H. destruct v as [z|f].
  - destruct Ty as [Ft _]. destruct Ok as [Ok|Ok]; [congruence|].
    assert (W : forall w, simd_implementation o = true -> wide o t = Some w -> False). { intros w. pick Ok; intros S; try discriminate S; destruct t; discriminate. }
    assert (Z0 : (z =? 0) = true <-> denotes (VI z) 0). { cbn. split; intros E; [apply Z.eqb_eq in E; now subst|apply Z.eqb_eq; apply eq_IZR; congruence]. }
    exists (fun _ => true), (match o with not_op | isnanorzero_op => z =? 0 | _ => false end).
    split; [|split; [|intros w S E; destruct (W w S E)]].
    + intros c x D. pick Ok; cbn [calculate]; rewrite D; reflexivity.
    + pick Ok; cbn [tested] in H; injection H as <-; auto; try (split; [discriminate|]); try (intros [E|[s E]]); try (intros [s E]); try discriminate; try (now intros E). cbn [denotes] in Z0.
      rewrite Z0. split; auto. intros [E|E]; [discriminate|auto].
  - destruct Ty as [Ft V]. pose proof (inf_F f) as Fi. pose proof (normal_F t f Ft V) as Fn.
    assert (Fa : isnan f = true <-> VF f = VF S754_nan) by (destruct f; cbn; split; congruence).
    assert (F0 : fzero f = true <-> denotes (VF f) 0).
    { split; [destruct f; try discriminate; now split|]. intros [A B]. destruct (SF2R_zero f A B) as [s ->]. reflexivity. }
    assert (Ff : isfinite f = true <-> VF f <> VF S754_nan /\ ~ infinite (VF f)).
    { rewrite <- Fi. destruct f as [s|s| |s m e]; cbn; split; intros E; try discriminate; try (split; congruence); auto; destruct E; congruence. }
    exists (match o with isnan_op => isnan | _ => fun f => negb (isnan f) end), (match o with not_op => fzero f | isnotnan_op => negb (isnan f) | isnan_op => isnan f | isfinite_op => isfinite f | isnotfinite_op => negb (isfinite f)
      | isinf_op => isinf f | isnotinf_op => negb (isinf f) | isnormal_op => isnormal t f | isnotnormal_op => negb (isnormal t f) | _ => fzero f || isnan f end).
    split; [|split].
    + intros c x D. destruct o; try discriminate H; cbn [calculate]; rewrite D; reflexivity.
    + destruct o; try discriminate H; cbn [tested] in H; injection H as <-; try (rewrite orb_true_iff, F0, Fa; cbn [denotes]; clear; tauto); rewrite ?negb_true_iff, <- ?not_true_iff_false, ?orb_true_iff; rewrite ?F0, ?Fa, ?Fi, ?Fn, ?Ff; try tauto.
      rewrite <- Fa, <- Fi. destruct f; cbn; intuition congruence.
    + intros w S W. destruct o; try discriminate H; try discriminate S; destruct t; try discriminate W; cbn [wide] in W; injection W as <-; auto.
Qed.
Lemma tests_ok c o t im ib s n om ob inner stride_out so : (forall v, exists P, tested o t v = Some P) -> In t loop_types ->
  is_float t = true \/ In o [not_op; isnan_op; isnotfinite_op; isinf_op; isnotnormal_op; isnanorzero_op] -> inner * stride_out = so ->
  inside t im ib s n -> (forall i, 0 <= i < n -> 0 <= ob + i * so /\ ob + i * so + size t <= len om) -> 0 <= n -> (s = size t -> so = size t) -> size t <= Z.abs so \/ n <= 1 ->
  exists om', walk_data_array c o (Number t) inner n s stride_out im ib om ob = Finished om' /\ len om' = len om /\
    (forall i, 0 <= i < n -> exists x y P, item_at t im ib s i x /\ item_at t om' ob so i y /\ tested o t (dec t x) = Some P /\ answered P y) /\
    forall p, 0 <= p -> (forall i, 0 <= i < n -> p < ob + i * so \/ ob + i * so + size t <= p) -> nth_error om' (Z.to_nat p) = nth_error om (Z.to_nat p).
Proof.
  intros Te T Ok So [By In_] Rm N Pk Ap. pose proof (size_pos t T) as Ps. set (R := fun x y => exists P, tested o t (dec t x) = Some P /\ answered P y).
  destruct (walk_ok c o t im ib s n ob inner stride_out so R T So) with (fuel := S (Z.to_nat n)) (om := om) (off := 0) as (om' & W & [K1 K2] & G); auto; try lia.
  - intros i I. destruct (In_ i I) as [A B]. destruct (load_ok (ib + i * s) (size t) im) as (x & X & Lx); try lia. exists x. split; auto. split; auto.
    destruct (Te (dec t x)) as [P E]. destruct (tested_ok o t (dec t x) P Ok (dec_typed t x T (load_isbyte _ _ _ _ By X) Lx) E) as (g & b & C & Q & _). exists (mask t b). split; [now apply C|]. split; [now apply mask_len|].
    exists P. split; auto. now apply answered_mask.
  - intros v Sm W Es. split; auto. exists (fun v => mask t (match o with isnan_op => isnan (as_f v) | _ => negb (isnan (as_f v)) end)).
    split; [destruct o; try discriminate Sm; destruct t; try discriminate W; cbn [wide] in W; try (now injection W as <-); destruct (Te (VI 0)) as [P E]; discriminate E|]. split; [intros; now apply mask_len|].
    intros i x I X. destruct (Te (dec t x)) as [P E]. pose proof (load_isbyte _ _ _ _ By X) as Bx. assert (Lx : len x = size t) by (now apply load_inv in X as (_ & _ & _ & _ & X)).
    destruct (tested_ok o t (dec t x) P Ok (dec_typed t x T Bx Lx) E) as (g & b & C & Q & Hw). exists P. split; auto. apply answered_mask. rewrite <- Q. clear - Sm W E C T.
    pose proof (C (fun _ _ f => f) x eq_refl) as C'.
    assert (Ft : exists f, dec t x = VF f) by (destruct o; try discriminate Sm; try discriminate E; destruct t; try discriminate W; eexists; reflexivity). destruct Ft as [f Ft]. rewrite Ft in *.
    assert (Inj : forall b b', mask t b = mask t b' -> b = b') by (intros [] []; auto; clear - T; intros H; pick T; discriminate H).
    destruct o; try discriminate Sm; try discriminate E; cbn [calculate] in C'; rewrite Ft in C'; injection C' as C'; apply Inj in C'; cbn [as_f]; now rewrite C'.
  - exists om'. split; [exact W|]. split; auto. split; auto. intros i I. destruct (G i I) as (x & y & X & Y & P & E & A). exists x, y, P. auto.
Qed.
Lemma returned_ok c junk u n a out r : process_one_input c junk u n a out = NewArray r -> out = None /\ fst (GetStridesAndContig (a_lay a)) = 0.
Proof.
  unfold process_one_input. destruct (GetStridesAndContig (a_lay a)) as [dir stride]. cbn [fst]. destruct (get_op_trait u) as [o|]; [|discriminate]. destruct (get_type_trait n) as [k|]; [|discriminate].
  assert (E : forall w f, (forall m, f m <> NewArray r) -> ended w f <> NewArray r) by (intros [m| |] f F; cbn; auto; discriminate).
  assert (Tail : forall s, match s with None => NoneFor None | Some r =>
              let '(direction_out, stride_out) := GetStridesAndContig (a_lay r) in
              if negb (direction_out =? 0) then NoneFor (Some (a_mem r))
              else if dir =? 0 then
                ended (walk_data_array c o k (Z.of_nat (length (dims (a_lay a)))) (Z.of_nat (prod (dims (a_lay a)))) stride stride_out (a_mem a) (a_base a) (a_mem r) (a_base r)) (fun m => NoneFor (Some m))
              else if dir =? 1 then ended (walk_row_major c o k a stride_out (a_mem r) (a_base r)) (fun m => NoneFor (Some m))
              else if dir =? -1 then ended (walk_column_major c o k a stride_out (a_mem r) (a_base r)) (fun m => NoneFor (Some m))
              else NoneFor (Some (a_mem r)) end <> NewArray r).
  { intros [r'|]; [|discriminate]. destruct (GetStridesAndContig (a_lay r')) as [d s]. destruct (negb _); [discriminate|]. destruct (dir =? 0); [apply E; discriminate|]. destruct (dir =? 1); [apply E; discriminate|].
    destruct (dir =? -1); [apply E; discriminate|discriminate]. }
  destruct (Z.eqb_spec dir 0) as [->|N]; [destruct out as [out|]|]; auto; intros H; exfalso; eapply Tail; exact H.
Qed.
