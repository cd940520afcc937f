(** C35: rolling quantiles. *)
From Verif Require Import Base Mem AccumSpec Accum5Proofs GrpxModel GrpxSpec Grpx4Proofs RollSpec HeapModel HeapGrpModel HeapSpec Heap6Proofs Heap7Proofs.
Local Open Scope Z_scope.

(** ** C35.  After every stream the two heaps hold the valid items of the window split at the index, and the reported values are
    those at the index.  Missing: an index within 1/1000 of a whole number is taken for it (C35_near_refuted); the midpoint of
    integers can overflow (C35_overflow_refuted). *)
Theorem C35_heaps_partial :
  forall (T U : Type) (less : T -> T -> bool) (valid : T -> bool) (uinv : U) (conv : T -> U) (split : T -> T -> U) k W l,
  order_ok valid less -> 0 <= k <= MULT -> (2 <= W)%nat ->
  exists us s, updates less valid uinv conv split (IntegralIndex k) (IndexIsIntegral k) W (IntegralIndex k W + 1) (W - (IntegralIndex k W + 1)) l (rq_init W) = Some (us, s) /\
    two_heaps less valid (IntegralIndex k) W l s /\ length us = length l.
Proof. intros; now apply updates_code. Qed.
Print Assumptions C35_heaps_partial.

(** whatever the index, if it stays inside and moves by at most one when an item comes or goes *)
Theorem C35_any_index_partial :
  forall (T U : Type) (less : T -> T -> bool) (valid : T -> bool) (uinv : U) (conv : T -> U) (split : T -> T -> U) index integral W,
  index_ok index integral -> order_ok valid less -> (2 <= W)%nat -> forall l,
  exists us s, updates less valid uinv conv split index integral W (index W + 1) (W - (index W + 1)) l (rq_init W) = Some (us, s) /\
    two_heaps less valid index W l s /\ rolled (quantile_row less valid uinv conv split index integral (Z.of_nat W) l) l us.
Proof. exact (@updates_rows). Qed.
Print Assumptions C35_any_index_partial.

Example C35_index : forall k, 0 <= k <= MULT -> index_ok (IntegralIndex k) (IndexIsIntegral k).
Proof. exact index_ok_code. Qed.

(** the array operation: every row is the quantile of its window, with the code's index *)
Theorem C35_rows_partial :
  forall (T U : Type) (less : T -> T -> bool) (valid : T -> bool) (uinv : U) (conv : T -> U) (split : T -> T -> U),
  order_ok valid less -> forall k w l, 0 <= k <= MULT -> 0 < w ->
  exists us, RollingQuantile less valid uinv conv split (k + w * (MULT + 1)) l = QOk us /\
    rolled (quantile_row less valid uinv conv split (IntegralIndex k) (IndexIsIntegral k) w l) l us.
Proof. exact (@RollingQuantile_ok). Qed.
Print Assumptions C35_rows_partial.

(** the exact index, where no index of a window up to [w] is close to but not at a whole number *)
Theorem C35_exact_partial :
  forall (T U : Type) (less : T -> T -> bool) (valid : T -> bool) (uinv : U) (conv : T -> U) (split : T -> T -> U),
  order_ok valid less -> forall k w l, 0 <= k <= MULT -> 0 < w -> (forall n, (0 < n <= Z.to_nat w)%nat -> clear_index k n) ->
  exists us, RollingQuantile less valid uinv conv split (k + w * (MULT + 1)) l = QOk us /\
    rolled (quantile_row less valid uinv conv split (exact_index k) (exact_whole k) w l) l us.
Proof. exact (@RollingQuantile_exact). Qed.
Print Assumptions C35_exact_partial.

(** medians have such indices, for every window *)
Theorem C35_median_partial :
  forall (T U : Type) (less : T -> T -> bool) (valid : T -> bool) (uinv : U) (conv : T -> U) (split : T -> T -> U),
  order_ok valid less -> forall w l, 0 < w ->
  exists us, RollingQuantile less valid uinv conv split (500000000 + w * (MULT + 1)) l = QOk us /\
    rolled (quantile_row less valid uinv conv split (fun n => ((n - 1) / 2)%nat) Nat.odd w l) l us.
Proof. exact (@RollingQuantile_median). Qed.
Print Assumptions C35_median_partial.

Example C35_values :
  RollingQuantile Z.ltb ok64 INV64 (fun x => 2 * x) Z.add (500000000 + 3 * (MULT + 1)) [5; 1; INV64; 9; 7] = QOk [10; 6; 6; 10; 16].
Proof. vm_compute. reflexivity. Qed.
Example C35_invalid :
  RollingQuantile Z.ltb ok64 INV64 (fun x => 2 * x) Z.add (500000000 + 2 * (MULT + 1)) [3; INV64; INV64; 4] = QOk [6; 6; INV64; 8].
Proof. vm_compute. reflexivity. Qed.
Example C35_window : RollingQuantile Z.ltb ok64 INV64 (fun x => 2 * x) Z.add 500000000 [3; 4] = QError.
Proof. vm_compute. reflexivity. Qed.

(** by group: every row is the quantile of its window in its group, whatever the groups before it left in the work space *)
Theorem C35_groups_partial :
  forall (T U : Type) n keys (src : list T) ncount igroup ifirst (less : T -> T -> bool) (valid : T -> bool) (uinv : U) (conv : T -> U) (split : T -> T -> U),
  layout n keys src ncount igroup ifirst -> order_ok valid less -> forall left k w low high (out0 : list U),
  0 < n -> 0 <= low <= high -> high <= n -> length out0 = length keys -> 0 <= k <= MULT -> 0 < w -> (forall i, length (left i) = Z.to_nat w) ->
  exists res, GroupByX (AccumRollingQuantile1e9Mult src igroup ifirst ncount less valid uinv conv split left (k + w * (MULT + 1))) low high out0 = Some res /\
    per_row uinv (quantile_row less valid uinv conv split (IntegralIndex k) (IndexIsIntegral k) w) low high keys src out0 res.
Proof. exact (@group_quantile_ok). Qed.
Print Assumptions C35_groups_partial.

Example C35_groups :
  exists res, GroupByX (AccumRollingQuantile1e9Mult [5; 9; 7; 2; 3; 8] ex_igroup ex_ifirst ex_ncount Z.ltb ok64 INV64 (fun x => 2 * x) Z.add (fun _ => [None; None]) (500000000 + 2 * (MULT + 1))) 0 4 (repeat 0 6) = Some res /\
    per_row INV64 (quantile_row Z.ltb ok64 INV64 (fun x => 2 * x) Z.add (IntegralIndex 500000000) (IndexIsIntegral 500000000) 2) 0 4 ex_keys [5; 9; 7; 2; 3; 8] (repeat 0 6) res.
Proof. apply (C35_groups_partial _ _ 4 ex_keys); [now apply ex_layout | exact z_order | unfold MULT; lia || reflexivity ..]. Qed.

(** ** Where the property fails *)
(** the quantile 0.0005 of two items lies between them, and the first is reported (values in halves) *)
Theorem C35_near_refuted :
  exists k l us u, 0 <= k <= MULT /\ RollingQuantile Z.ltb ok64 INV64 (fun x => 2 * x) Z.add (k + 2 * (MULT + 1)) l = QOk us /\
    nth_error us 1 = Some u /\ ~ quantile_row Z.ltb ok64 INV64 (fun x => 2 * x) Z.add (exact_index k) (exact_whole k) 2 l 1 u.
Proof. exact near_refuted. Qed.
Print Assumptions C35_near_refuted.

(** the median of 2^62 and 2^62, of type int64 *)
Theorem C35_overflow_refuted :
  exists l, Forall (fun x => ok64 x = true /\ - 2 ^ 63 <= x < 2 ^ 63) l /\
    RollingQuantile Z.ltb ok64 (Some INV64) (fun x => Some (2 * x)) QUANTILE_SPLIT64 (500000000 + 2 * (MULT + 1)) l = QOk [Some (2 ^ 63); None].
Proof. exists [2 ^ 62; 2 ^ 62]. split; [repeat constructor; try reflexivity; lia | vm_compute; reflexivity]. Qed.
Print Assumptions C35_overflow_refuted.
