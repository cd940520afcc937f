(** Proofs about InterpExtrap2d from its arguments to its result. *)
From Verif Require Import Base Mem MemLemmas AllModel EaModel EaSpec Ea2Proofs.
From Verif Require Import MwSpec MwProofs IqModel IqSpec.
From Verif Require InterpModel InterpSpec InterpProps BnModel.
From Coq Require Import QArith Qcanon.
Local Open Scope Z_scope.

Lemma interp_call ord thr two d a p q m clip : fair ord -> - 2 ^ 31 <= clip < 2 ^ 31 -> In d [11; 12] -> 2 <= m -> row_of d a ->
  points_of d two (a_len (v_items a)) m p -> points_of d two (a_len (v_items a)) m q ->
  let xs := arg_vals None (v_items a) in let ps := arg_vals 0%Qc (g_items p) in let qs := arg_vals 0%Qc (g_items q) in let M := Z.to_nat m in
  (forall i, (i < length xs)%nat -> InterpSpec.increasing (InterpSpec.points ps qs (InterpSpec.row_start two M i) M)) ->
  (forall i x, nth_error xs i = Some (Some x) -> (two = true /\ S i < length xs)%nat \/ InterpSpec.reached (InterpSpec.points ps qs (InterpSpec.row_start two M i) M) x) ->
  exists out, InterpCall ord thr (Some a) (Some p) (Some q) clip = Done (d, out) /\ length out = length xs /\
    forall i v, nth_error xs i = Some v -> match v with
      | None => nth_error out i = Some None
      | Some x => exists y, nth_error out i = Some (Some y) /\ InterpSpec.interpolates (negb (clip =? 0)) (InterpSpec.points ps qs (InterpSpec.row_start two M i) M) x y
      end.
Proof.
  intros HO HC HD HM (VD & VT & VP) (PS & PF & PT & PP & PL) (QS & QF & QT & QP & QL) xs ps qs M HI HR.
  pose proof (proj1 VP) as VL. unfold InterpCall. assert (E : BnModel.int32_ok clip = true) by (unfold BnModel.int32_ok; lia). rewrite E, VD. cbn [negb]. change (1 <? 1) with false. cbv iota.
  rewrite PS, QS, PF, QF. assert (E1 : negb (length (if two then [a_len (v_items a); m] else [m]) =? length (if two then [a_len (v_items a); m] else [m]))%nat ||
    (2 <? length (if two then [a_len (v_items a); m] else [m]))%nat = false) by (destruct two; reflexivity). rewrite E1. cbn [andb negb].
  assert (E2 : extent (a_len (v_items a)) (if two then [a_len (v_items a); m] else [m]) (if two then [a_len (v_items a); m] else [m]) = Done (two, m)).
  { assert (L2 : (m <? 2) = false) by lia. destruct two; cbn [extent]; rewrite ?Z.eqb_refl, L2; reflexivity. }
  rewrite E2. cbn [obind]. cbv zeta. rewrite VT, PT, QT, Z.eqb_refl. cbn [negb orb fst snd].
  assert (E3 : negb (d =? 12) && negb (d =? 11) = false) by (cbn [In] in HD; lia). rewrite E3.
  rewrite (proj1 (plain_read None _ VP)), (proj1 (plain_read 0%Qc _ PP)), (proj1 (plain_read 0%Qc _ QP)). cbn [undef obind].
  destruct (InterpProps.C71_interpolation_partial ord thr two (negb (clip =? 0)) M xs ps qs) as (out & R & L & F); [exact HO|unfold M; lia| | |exact HI|exact HR|].
  - unfold ps, xs. rewrite (proj2 (plain_read 0%Qc _ PP)), (proj2 (plain_read None _ VP)), PL. unfold M. destruct two; [apply Z2Nat.inj_mul; [exact VL|lia]|reflexivity].
  - unfold qs, xs. rewrite (proj2 (plain_read 0%Qc _ QP)), (proj2 (plain_read None _ VP)), QL. unfold M. destruct two; [apply Z2Nat.inj_mul; [exact VL|lia]|reflexivity].
  - unfold xs, ps, qs, M in R. rewrite R. exists out. split; [reflexivity|]. split; [exact L|exact F].
Qed.
Lemma interp_refused ord thr a p q clip :
  match a, p, q with Some a, Some p, Some q => ~ (- 2 ^ 31 <= clip < 2 ^ 31) \/ 1 < v_dims a \/ v_dims a = 1 /\ bad_points a p q | _, _, _ => True end ->
  InterpCall ord thr a p q clip = Error.
Proof.
  destruct a as [a|]; [|reflexivity]. destruct p as [p|]; [|reflexivity]. destruct q as [q|]; [|reflexivity]. intros H. unfold InterpCall.
  destruct (BnModel.int32_ok clip) eqn:E; [|reflexivity]. cbn [negb]. unfold BnModel.int32_ok in E. destruct (Z.ltb_spec 1 (v_dims a)); [reflexivity|].
  destruct H as [H|[H|(V & H)]]; [lia|lia|].
  destruct (Nat.eqb_spec (length (g_shape p)) (length (g_shape q))); [|reflexivity]. destruct (Nat.ltb_spec 2 (length (g_shape q))); [reflexivity|]. cbn [negb orb].
  destruct (g_flat p) eqn:FP; [|reflexivity]. destruct (g_flat q) eqn:FQ; [|reflexivity]. cbn [andb negb]. rewrite V. change (1 <? 1) with false. cbv iota.
  destruct H as [H|[H|[H|[H|[(m1 & m2 & S1 & S2 & H)|(n1 & m1 & n2 & m2 & S1 & S2 & H)]]]]]; [contradiction|lia|congruence|congruence| |]; rewrite S1, S2; cbn [extent].
  - assert (X : negb (m1 =? m2) || (m1 <? 2) = true) by lia. rewrite X. reflexivity.
  - destruct (negb (a_len (v_items a) =? n1) || negb (a_len (v_items a) =? n2)) eqn:X1; [reflexivity|]. assert (X : negb (m1 =? m2) || (m1 <? 2) = true) by lia. rewrite X. reflexivity.
Qed.
Lemma interp_types ord thr a p q clip : v_dims a = 1 -> g_shape p <> [] -> bad_types a p q -> InterpCall ord thr (Some a) (Some p) (Some q) clip = Error.
Proof.
  intros V NE H. unfold InterpCall. destruct (BnModel.int32_ok clip); [|reflexivity]. cbn [negb]. rewrite V. change (1 <? 1) with false. cbv iota.
  destruct (Nat.eqb_spec (length (g_shape p)) (length (g_shape q))) as [L|]; [|reflexivity]. destruct (Nat.ltb_spec 2 (length (g_shape q))); [reflexivity|]. cbn [negb orb].
  destruct (negb (g_flat p && g_flat q)); [reflexivity|].
  assert (X : extent (a_len (v_items a)) (g_shape p) (g_shape q) = Error \/ exists e, extent (a_len (v_items a)) (g_shape p) (g_shape q) = Done e).
  { destruct (g_shape p) as [|m1 [|k1 [|? ?]]], (g_shape q) as [|m2 [|k2 [|? ?]]]; cbn [length] in *; try lia; try contradiction; cbn [extent].
    - destruct (_ || _)%bool; [left; reflexivity|right; eexists; reflexivity].
    - destruct (negb (a_len (v_items a) =? m1) || _)%bool; [left; reflexivity|]. destruct (_ || _)%bool; [left; reflexivity|right; eexists; reflexivity]. }
  destruct X as [X|(e & X)]; rewrite X; cbn [obind]; [reflexivity|]. cbv zeta. destruct H as [H|[H|H]].
  - destruct (Z.eqb_spec (a_dtype (v_items a)) (a_dtype (g_items p))); [symmetry in e0; contradiction|reflexivity].
  - destruct (Z.eqb_spec (a_dtype (v_items a)) (a_dtype (g_items q))); [symmetry in e0; contradiction|]. rewrite orb_true_r. reflexivity.
  - destruct (_ || _)%bool; [reflexivity|]. assert (Y : negb (a_dtype (v_items a) =? 12) && negb (a_dtype (v_items a) =? 11) = true) by (cbn [In] in H; lia). rewrite Y. reflexivity.
Qed.
