(** C87: the arrays of operations on one array. *)
From Verif Require Import Base Mem MemLemmas Par LayoutModel LayoutSpec LayoutProofs UoutModel UoutSpec UoutProofs.
Local Open Scope Z_scope.

(** ** A new array *)
Theorem C87_new_1d_partial : forall ord thr l osize, fair ord -> good l -> 0 < osize -> (length (dims l) <= 1)%nat ->
  exists o, snd (UnaryNew ord thr l osize) = Filled o /\ same_items l (like l osize) o.
Proof. intros. rewrite new_safe by assumption. now apply safe_1d. Qed.
Print Assumptions C87_new_1d_partial.
Theorem C87_new_fortran_partial : forall ord thr l osize, fair ord -> good l -> 0 < osize -> 0 < isz l -> strides l = fstrides (isz l) (dims l) ->
  exists o, snd (UnaryNew ord thr l osize) = Filled o /\ same_items l (like l osize) o.
Proof. intros. rewrite new_safe by assumption. now apply safe_F. Qed.
Print Assumptions C87_new_fortran_partial.
Theorem C87_new_c_partial : forall ord thr l osize, fair ord -> good l -> 0 < osize -> 0 < isz l -> strides l = cstrides (isz l) (dims l) ->
  exists o, snd (UnaryNew ord thr l osize) = Filled o /\ same_items l (like l osize) o.
Proof. intros. rewrite new_safe by assumption. now apply safe_C. Qed.
Print Assumptions C87_new_c_partial.
Theorem C87_new_rows_partial : forall ord thr l osize d0 ds S0 s, fair ord -> good l -> 0 < osize -> 0 < isz l -> dims l = d0 :: ds -> ds <> [] -> strides l = S0 :: cstrides s ds ->
  (1 < d0)%nat -> (1 < nth (length ds - 1) ds 0)%nat \/ s = isz l -> Z.abs s < Z.abs S0 ->
  exists o, snd (UnaryNew ord thr l osize) = Filled o /\ same_items l (like l osize) o.
Proof. intros. rewrite new_safe by assumption. eapply safe_C_rows; eassumption. Qed.
Print Assumptions C87_new_rows_partial.
(** the shape of the result, for any strides *)
Theorem C87_new_shape_partial : forall ord thr l osize, (1 <= length (dims l))%nat -> fst (UnaryNew ord thr l osize) = dims l.
Proof. exact new_dims. Qed.
Print Assumptions C87_new_shape_partial.
Example C87_new_example : let l := {| dims := [3; 2]%nat; strides := [-32; 16]; isz := 8 |} in
  good l /\ strides l = -32 :: cstrides 16 [2%nat] /\ UnaryNew in_order false l 1 = ([3; 2]%nat, Filled (map Some [0; 16; -32; -16; -64; -48])).
Proof. split; [|split; vm_compute; reflexivity]. split; [repeat constructor|reflexivity]. Qed.
(** an array without dimensions gives one with one dimension *)
Theorem C87_zero_dim_refuted : exists l, good l /\ fst (UnaryNew in_order false l 8) <> dims l.
Proof. exists {| dims := []; strides := []; isz := 8 |}. split; [split; [constructor|reflexivity]|]. vm_compute. discriminate. Qed.
Print Assumptions C87_zero_dim_refuted.
(** a[::2] of an array in Fortran order: transposed *)
Theorem C87_fortran_slice_refuted : exists l o, good l /\ snd (UnaryNew in_order false l 8) = Filled o /\ ~ same_items l (like l 8) o.
Proof.
  exists {| dims := [2; 2]%nat; strides := [16; 32]; isz := 8 |}. eexists. split; [split; [repeat constructor|reflexivity]|]. split; [vm_compute; reflexivity|].
  intros [_ H]. destruct (H [0; 1]%nat) as (p & E & N); [repeat constructor|]. change (offset _ _) with 8 in E. change (isz _) with 8 in E. assert (p = 1%nat) by lia. subst p. discriminate N.
Qed.
Print Assumptions C87_fortran_slice_refuted.
(** sliding_window_view(a, 2): reads items that are not in the array *)
Theorem C87_window_refuted : exists l o off, good l /\ strides l = [isz l; isz l] /\ snd (UnaryNew in_order false l 8) = Filled o /\
  In (Some off) o /\ forall idx, valid (dims l) idx -> offset (strides l) idx < off.
Proof.
  exists {| dims := [3; 2]%nat; strides := [8; 8]; isz := 8 |}. eexists. exists 40. split; [split; [repeat constructor|reflexivity]|]. split; [reflexivity|]. split; [vm_compute; reflexivity|].
  split; [simpl; tauto|]. cbn [dims strides]. intros idx V. inversion V as [|i ? r ? H V']; subst. inversion V' as [|j ? r' ? H' V'']; subst. inversion V''; subst. simpl. lia.
Qed.
Print Assumptions C87_window_refuted.
(** a[:, :2, :] of an array of three dimensions in Fortran order: items of the result are never written *)
Theorem C87_unwritten_refuted : exists l o, good l /\ snd (UnaryNew in_order false l 8) = Filled o /\ In None o.
Proof.
  exists {| dims := [2; 2; 2]%nat; strides := [8; 16; 64]; isz := 8 |}. eexists. split; [split; [repeat constructor|reflexivity]|]. split; [vm_compute; reflexivity|]. simpl. tauto.
Qed.
Print Assumptions C87_unwritten_refuted.

(** ** An array for the result *)
Theorem C87_out_partial : forall V ord thr (f : V -> V) l a out b m, fair ord -> good l -> good out -> 0 < isz l -> 0 < isz out ->
  dims out = dims l -> matching l out -> apart l a out b -> exists m', UnaryOut ord thr f l a out b m = Some m' /\ stored f l a out b m m'.
Proof. intros V. exact out_ok. Qed.
Print Assumptions C87_out_partial.
(** arrays of different lengths are left to numpy *)
Theorem C87_length : forall V ord thr (f : V -> V) l a out b m, prod (dims l) <> prod (dims out) -> UnaryOut ord thr f l a out b m = None.
Proof. intros V ord thr f l a out b m H. unfold UnaryOut. destruct (Nat.eqb_spec (prod (dims l)) (prod (dims out))); [easy|reflexivity]. Qed.
Print Assumptions C87_length.
(** -a[::-1] into b, of which only every second item is used; and -a into a *)
Example C87_out_example : let l := {| dims := [3]%nat; strides := [-8]; isz := 8 |} in let out := {| dims := [3]%nat; strides := [16]; isz := 8 |} in
  good l /\ good out /\ matching l out /\ apart l 16 out 100 /\
  option_map (fun m => map m [100; 108; 116; 124; 132]) (UnaryOut in_order false Z.opp l 16 out 100 (fun x => x)) = Some [-16; 108; -8; 124; 0].
Proof.
  split; [split; [repeat constructor|reflexivity]|]. split; [split; [repeat constructor|reflexivity]|]. split; [apply OneDim; [cbn; lia|right; discriminate]|].
  split; [|vm_compute; reflexivity]. left. intros x (i & Vi & ->) (j & Vj & E). cbn [dims strides] in *.
  inversion Vi as [|i0 ? r ? H Vi']; subst. inversion Vi'; subst. inversion Vj as [|j0 ? r ? H' Vj']; subst. inversion Vj'; subst. cbn [offset] in E. lia.
Qed.
Example C87_in_place_example : let l := {| dims := [2; 2]%nat; strides := [8; 16]; isz := 8 |} in
  good l /\ matching l l /\ apart l 0 l 0 /\ option_map (fun m => map m [0; 8; 16; 24; 32]) (UnaryOut in_order false Z.opp l 0 l 0 (fun x => x)) = Some [0; -8; -16; -24; 32].
Proof.
  split; [split; [repeat constructor|reflexivity]|]. split; [now apply BothF|]. split; [right; auto|]. vm_compute. reflexivity.
Qed.
(** C order into Fortran order: transposed *)
Theorem C87_order_refuted : exists l a out b m', good l /\ good out /\ dims out = dims l /\ apart l a out b /\
  UnaryOut in_order false Z.opp l a out b (fun x => x) = Some m' /\ ~ stored Z.opp l a out b (fun x => x) m'.
Proof.
  exists {| dims := [2; 2]%nat; strides := [16; 8]; isz := 8 |}, 0, {| dims := [2; 2]%nat; strides := [8; 16]; isz := 8 |}, 32. eexists.
  split; [split; [repeat constructor|reflexivity]|]. split; [split; [repeat constructor|reflexivity]|]. split; [reflexivity|]. split; [|split; [reflexivity|]].
  - left. intros x (i & Vi & ->) (j & Vj & E). cbn [dims strides] in *.
    inversion Vi as [|i0 ? r ? H Vi']; subst. inversion Vi' as [|i1 ? r' ? H1 Vi'']; subst. inversion Vi''; subst.
    inversion Vj as [|j0 ? r ? H' Vj']; subst. inversion Vj' as [|j1 ? r' ? H2 Vj'']; subst. inversion Vj''; subst. cbn [offset] in E. lia.
  - intros [H _]. specialize (H [0; 1]%nat ltac:(repeat constructor)). vm_compute in H. discriminate H.
Qed.
Print Assumptions C87_order_refuted.
(** an array of another shape is accepted if it has as many items *)
Theorem C87_shape_refuted : exists l a out b m', good l /\ good out /\ dims out <> dims l /\ UnaryOut in_order false Z.opp l a out b (fun x => x) = Some m'.
Proof.
  exists {| dims := [2; 3]%nat; strides := [24; 8]; isz := 8 |}, 0, {| dims := [3; 2]%nat; strides := [16; 8]; isz := 8 |}, 48. eexists.
  split; [split; [repeat constructor|reflexivity]|]. split; [split; [repeat constructor|reflexivity]|]. split; [discriminate|reflexivity].
Qed.
Print Assumptions C87_shape_refuted.
(** a[1:] = -a[:-1]: items are read after they have been replaced *)
Theorem C87_overlap_refuted : exists l a out b m', good l /\ good out /\ dims out = dims l /\ matching l out /\
  UnaryOut in_order false Z.opp l a out b (fun x => x + 1) = Some m' /\ ~ stored Z.opp l a out b (fun x => x + 1) m'.
Proof.
  exists {| dims := [3]%nat; strides := [8]; isz := 8 |}, 0, {| dims := [3]%nat; strides := [8]; isz := 8 |}, 8. eexists.
  split; [split; [repeat constructor|reflexivity]|]. split; [split; [repeat constructor|reflexivity]|]. split; [reflexivity|]. split; [apply OneDim; [cbn; lia|right; discriminate]|].
  split; [reflexivity|]. intros [H _]. specialize (H [1]%nat ltac:(repeat constructor)). vm_compute in H. discriminate H.
Qed.
Print Assumptions C87_overlap_refuted.
(** sliding_window_view(b, 2, writeable=True) as the array for the result: an item after the array is written *)
Theorem C87_window_out_refuted : exists l a out b m' x, good l /\ good out /\ dims out = dims l /\
  UnaryOut in_order false Z.opp l a out b (fun x => x) = Some m' /\ ~ at_ out b x /\ m' x <> x.
Proof.
  exists {| dims := [2; 2]%nat; strides := [16; 8]; isz := 8 |}, 0, {| dims := [2; 2]%nat; strides := [8; 8]; isz := 8 |}, 32. eexists. exists 56.
  split; [split; [repeat constructor|reflexivity]|]. split; [split; [repeat constructor|reflexivity]|]. split; [reflexivity|]. split; [reflexivity|]. split.
  - intros (j & Vj & E). cbn [dims strides] in *. inversion Vj as [|j0 ? r ? H' Vj']; subst. inversion Vj' as [|j1 ? r' ? H2 Vj'']; subst. inversion Vj''; subst. cbn [offset] in E. lia.
  - vm_compute. discriminate.
Qed.
Print Assumptions C87_window_out_refuted.
