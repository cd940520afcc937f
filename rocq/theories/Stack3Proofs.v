(** The common type of a column. *)
From Coq Require Import SpecFloat.
From Verif Require Import Base MemLemmas Inter ConvModel ConvSpec StackModel StackSpec StackProofs Stack2Proofs.
Local Open Scope Z_scope.

Definition num (t : dtype) : Z :=
  match t with Bool => 0 | I8 => 1 | U8 => 2 | I16 => 3 | U16 => 4 | I32 => 5 | U32 => 6 | I64 => 9 | U64 => 10 | F32 => 11 | F64 => 12 | F80 => 13 end.
Definition kept_b (t u : dtype) : bool := holds_integers t u || (negb (is_float t) && (bits t =? 64) && (is_float u || (bits u =? 64))).
Definition below (t u : dtype) : bool :=
  (size t <=? size u) && implb (is_float t) (is_float u) && implb (dtype_beq u Bool) (dtype_beq t Bool) && kept_b t u.

Lemma fixed_num b t : of_num (fixed b) = Some t -> fixed b = num t.
Proof.
  unfold fixed, FixupDType, SDS_LONG, SDS_ULONG, SDS_INT, SDS_LONGLONG, SDS_UINT, SDS_ULONGLONG. intros H.
  destruct (Z.eqb_spec (b_dtype b) 7). { destruct (b_item b =? 4); now inversion H. }
  destruct (Z.eqb_spec (b_dtype b) 8). { destruct (b_item b =? 4); now inversion H. }
  unfold of_num, Mem.zrd in H. destruct (Z.leb_spec 0 (b_dtype b)) as [G|]; [|discriminate].
  set (d := b_dtype b) in *. clearbody d.
  assert (L : (Z.to_nat d < 14)%nat) by (apply nth_error_Some_lt in H; exact H).
  assert (D : d = 0 \/ d = 1 \/ d = 2 \/ d = 3 \/ d = 4 \/ d = 5 \/ d = 6 \/ d = 9 \/ d = 10 \/ d = 11 \/ d = 12 \/ d = 13) by lia. clear L G.
  repeat destruct D as [-> | D]; try (now inversion H). subst d. now inversion H.
Qed.
Lemma of_num_num t : of_num (num t) = Some t.
Proof. now destruct t. Qed.
Lemma upgrade_num m t item : fixed (UpgradeType m (num t) item) = num t /\ b_item (UpgradeType m (num t) item) = size t /\
  b_dims (UpgradeType m (num t) item) = b_dims m /\ b_c (UpgradeType m (num t) item) = b_c m /\ b_f (UpgradeType m (num t) item) = b_f m.
Proof. destruct t; repeat split. Qed.

(* the type of the column with one more array *)
Definition join (u t : dtype) : dtype :=
  match u, t with
  | F80, _ | _, F80 => F80
  | F64, _ | _, F64 => F64
  | F32, F32 => F32
  | F32, (I32 | U32 | I64 | U64) | (I32 | U32 | I64 | U64), F32 => F64
  | F32, _ | _, F32 => F32
  | U64, U64 | U64, I64 => U64
  | U64, (U8 | U16 | U32) | (U8 | U16 | U32), U64 => U64
  | U64, _ | _, U64 | I64, _ | _, I64 => I64
  | U32, (U8 | U16 | U32) | (U8 | U16), U32 => U32
  | U32, _ | _, U32 => I64
  | I32, _ | _, I32 => I32
  | U16, (U8 | U16) | U8, U16 => U16
  | U16, _ | _, U16 => I32
  | I16, _ | _, I16 => I16
  | U8, U8 => U8
  | U8, _ | _, U8 => I16
  | I8, _ | _, I8 => I8
  | Bool, Bool => Bool
  end.
Definition all_types := [Bool; I8; I16; I32; I64; U8; U16; U32; U64; F32; F64; F80].
Lemma all_types_in t : In t all_types. Proof. destruct t; simpl; tauto. Qed.
Lemma check3 (P : dtype -> dtype -> dtype -> bool) : forallb (fun a => forallb (fun b => forallb (P a b) all_types) all_types) all_types = true -> forall a b c, P a b c = true.
Proof.
  intros H a b c. rewrite forallb_forall in H. specialize (H a (all_types_in a)). rewrite forallb_forall in H. specialize (H b (all_types_in b)).
  rewrite forallb_forall in H. apply H, all_types_in.
Qed.
Lemma below_join t u o : implb (below t u) (below t (join u o)) = true.
Proof. revert t u o. apply check3. vm_compute. reflexivity. Qed.
Lemma below_new u o : below o (join u o) = true.
Proof. apply (check3 (fun u o _ => below o (join u o))); [vm_compute; reflexivity|exact Bool]. Qed.
Lemma below_refl t : below t t = true.
Proof. now destruct t. Qed.
Lemma kept_b_ok t u : kept_b t u = true -> kept t u.
Proof.
  unfold kept_b, kept. intros H. apply orb_true_iff in H as [H|H]; auto. right.
  apply andb_true_iff in H as [H H3]. apply andb_true_iff in H as [H1 H2]. apply negb_true_iff in H1. apply Z.eqb_eq in H2.
  split; auto. split; auto. apply orb_true_iff in H3 as [H3|H3]; auto. apply Z.eqb_eq in H3. auto.
Qed.

(* two arrays of numbers *)
Lemma compare_numbers m o u t : of_num (fixed m) = Some u -> b_item m = size u -> of_num (fixed o) = Some t -> b_item o = size t ->
  exists m1 conv, compare_types m o true = (m1, true, false, conv) /\ of_num (fixed m1) = Some (join u t) /\ b_item m1 = size (join u t) /\
    b_dims m1 = b_dims m /\ b_c m1 = b_c m /\ b_f m1 = b_f m.
Proof.
  intros Fu Iu Ft It. pose proof (fixed_num _ _ Fu) as Nu. pose proof (fixed_num _ _ Ft) as Nt.
  assert (D : b_dtype m <> 18 /\ b_dtype m <> 19).
  { split; intros E; unfold fixed, FixupDType in Nu; rewrite E in Nu; destruct u; discriminate. }
  unfold compare_types. rewrite Nu, Nt.
  assert (DS : (b_dtype m =? SDS_STRING) || (b_dtype m =? SDS_UNICODE) = false) by (unfold SDS_STRING, SDS_UNICODE; lia). rewrite DS.
  assert (K : forall conv : bool, exists (m1 : block) (conv' : bool), (m, true, false, conv) = (m1, true, false, conv') /\ of_num (fixed m1) = Some u /\ b_item m1 = size u /\ b_dims m1 = b_dims m /\ b_c m1 = b_c m /\ b_f m1 = b_f m).
  { intros conv. exists m, conv. repeat split; auto. }
  assert (U : forall w item (conv : bool), exists (m1 : block) (conv' : bool), (UpgradeType m (num w) item, true, false, conv) = (m1, true, false, conv') /\ of_num (fixed m1) = Some w /\ b_item m1 = size w /\ b_dims m1 = b_dims m /\ b_c m1 = b_c m /\ b_f m1 = b_f m).
  { intros w item conv. destruct (upgrade_num m w item) as (E1 & E2 & E3 & E4 & E5). exists (UpgradeType m (num w) item), conv. rewrite E1. split; auto. split; auto. apply of_num_num. }
  destruct u, t; cbn [num join];
    match goal with
    | |- exists m1 conv, (if ?a =? ?b then _ else _) = _ /\ of_num _ = Some ?w /\ _ =>
        first
          [ change (a =? b) with true; cbv iota; rewrite Iu, It; exact (K false)
          | change (a =? b) with false; cbv iota;
            first [exact (K true) | exact (K false) | exact (U w (b_item o) true) | exact (U w 0 true)] ]
    end.
Qed.
