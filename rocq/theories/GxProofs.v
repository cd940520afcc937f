(** Proofs about MBGet from its arguments to its result. *)
From Verif Require Import Base Mem MemLemmas AllModel EaModel EaSpec Ea2Proofs.
From Verif Require Import BxModel BxSpec BxProofs GxModel GxSpec.
From Verif Require MergeModel MergeSpec MergeProps WnModel Par.
Local Open Scope Z_scope.

Lemma py_element {X} (l : list X) d i : element l d i (MergeSpec.py_get l d i).
Proof.
  unfold MergeSpec.py_get, element. cbv zeta. destruct (Z.leb_spec 0 i).
  - destruct (Z.lt_ge_cases i (Z.of_nat (length l))).
    + left. split; [lia|]. apply nth_error_nth'. lia.
    + right. right. split; [lia|]. apply nth_overflow. lia.
  - destruct (Z.leb_spec (- Z.of_nat (length l)) i).
    + right. left. split; [lia|]. apply nth_error_nth'. lia.
    + right. right. split; [lia|reflexivity].
Qed.
Lemma index_right a : is_index a -> exists t, index_kind (a_dtype a) = Some t /\ 0 < MergeModel.itBits t /\ 13 <? a_dtype a = false /\ a_dtype a =? 0 = false /\
  (forall x, In x (arg_vals 0 a) -> MergeSpec.index_in_range (MergeModel.itUnsigned t) (MergeModel.itBits t) x) /\
  (MergeModel.itUnsigned t = true -> exists w, In w (unsigned_bits (a_dtype a))).
Proof.
  intros (_ & _ & [(w & W & R)|(w & W & R)]); (assert (C : In (a_dtype a) [1; 2; 3; 4; 5; 6; 7; 8; 9; 10]);
    [destruct (a_dtype a) as [|p|p]; cbn [signed_bits unsigned_bits In] in W; [destruct W| |destruct W]; repeat (destruct p as [p|p|]; cbn [In] in *; try tauto; try lia)|]);
  cbn [In] in C; repeat (destruct C as [C|C]; [rewrite <- C in *; cbn [signed_bits unsigned_bits In] in W; (contradiction || (destruct W as [W|[]]; subst w; eexists; split; [reflexivity|]; cbn [MergeModel.itBits MergeModel.itUnsigned];
    split; [lia|]; split; [reflexivity|]; split; [reflexivity|]; split; [exact R|]; intros U; try discriminate U; eexists; cbn [unsigned_bits In]; left; reflexivity))|]); contradiction.
Qed.
Lemma get_call ord1 ord2 thr chunk junk j2 size inv given v i : fair ord1 -> (0 < chunk)%nat -> 0 < size -> 0 <= a_len v -> arg_ok (a_len v) v -> is_index i ->
  (unsigned_bits (a_dtype i) <> [] -> In size [1; 2; 4; 8; 16]) -> (thr = true -> gapless v) ->
  exists res, MBGetCall ord1 ord2 thr chunk junk j2 size inv given (PArray v) (PArray i) = Done (a_dtype v, res) /\
    Forall2 (element (arg_vals [] v) (match given with Some (Some b) => b | _ => inv end)) (arg_vals 0 i) res.
Proof.
  intros HO HC HS LV OV HI HU HT. pose proof HI as (LI & OI & _). destruct (index_right i HI) as (t & K & B & E1 & E2 & R & U). unfold MBGetCall. rewrite E1, E2.
  exists (map (MergeSpec.py_get (arg_vals [] v) (match given with Some (Some b) => b | _ => inv end)) (arg_vals 0 i)). split.
  - destruct (Z.eqb_spec (a_len i) 0) as [L0|L0].
    + assert (N : arg_vals 0 i = []) by (apply length_zero_iff_nil; rewrite vals_len, L0; reflexivity). rewrite N. reflexivity.
    + rewrite K, (copy_right [] v LV OV), (copy_right 0 i LI OI). cbn [undef obind].
      rewrite (MergeProps.C07_fancy_index_partial (list Z) (arg_vals [] v) (default_bytes inv given) ord1 thr chunk t size (size * stride_of v) (arg_vals 0 i) j2 HO HC B HS R).
      * reflexivity.
      * intros E. destruct (U E) as (w & W). assert (N : unsigned_bits (a_dtype i) <> []) by (intros N; rewrite N in W; exact W). specialize (HU N). cbn [In] in HU. unfold MergeModel.fixed_size. lia.
      * intros E. specialize (HT E). unfold stride_of. destruct (Z.ltb_spec 1 (a_len v)); [destruct HT; [|lia]|]; lia.
  - clear. induction (arg_vals 0 i) as [|x l IH]; constructor; [apply py_element|exact IH].
Qed.
Lemma get_mask ord1 ord2 thr chunk junk j2 size inv given v i : a_dtype i = 0 ->
  MBGetCall ord1 ord2 thr chunk junk j2 size inv given (PArray v) (PArray i) = BooleanIndexCall ord1 ord2 thr chunk junk j2 size (PArray v) (PArray i).
Proof. intros E. unfold MBGetCall. rewrite E. reflexivity. Qed.
Lemma get_masked ord1 ord2 thr chunk junk j2 size inv given v m : fair ord1 -> fair ord2 -> (0 < chunk)%nat -> 0 < size -> is_mask m -> 0 <= a_len v -> arg_ok (a_len v) v -> a_len m = a_len v ->
  (thr = true -> 0 < a_len m) -> In size [1; 2; 4; 8] \/ gapless v \/ ~ gapless m ->
  MBGetCall ord1 ord2 thr chunk junk j2 size inv given (PArray v) (PArray m) = Done (a_dtype v, map (fun i => nth i (arg_vals [] v) []) (set_rows (arg_vals 0 m))).
Proof. intros HO1 HO2 HC HS HM. rewrite get_mask by apply HM. exact (index_call ord1 ord2 thr chunk junk j2 size v m HO1 HO2 HC HS HM). Qed.
Lemma get_refused ord1 ord2 thr chunk junk j2 size inv given v i :
  match v, i with PArray v, PArray i => 13 < a_dtype i \/ In (a_dtype i) [11; 12; 13] /\ a_len i <> 0 \/ a_dtype i = 0 /\ a_len i <> a_len v | _, _ => True end ->
  MBGetCall ord1 ord2 thr chunk junk j2 size inv given v i = Error.
Proof.
  destruct v as [|v|]; [reflexivity| |reflexivity]. destruct i as [|i|]; [reflexivity| |reflexivity]. intros H. unfold MBGetCall. destruct (Z.ltb_spec 13 (a_dtype i)); [reflexivity|].
  destruct H as [H|[(H & L)|(H & L)]]; [lia| |].
  - destruct (Z.eqb_spec (a_len i) 0); [contradiction|]. cbn [In] in H. destruct H as [H|[H|[H|[]]]]; rewrite <- H; reflexivity.
  - rewrite H. cbn [Z.eqb]. apply index_refused. right. exact L.
Qed.
Lemma get_empty ord1 ord2 thr chunk junk j2 size inv given v i : a_dtype i <> 0 -> a_dtype i <= 13 -> a_len i = 0 ->
  MBGetCall ord1 ord2 thr chunk junk j2 size inv given (PArray v) (PArray i) = Done (a_dtype v, []).
Proof. intros D E L. unfold MBGetCall. destruct (Z.ltb_spec 13 (a_dtype i)); [lia|]. rewrite (proj2 (Z.eqb_neq _ _) D), L. reflexivity. Qed.
