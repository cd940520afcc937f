(** C65 to C70: running values along the rows of a group. *)
From Verif Require Import Base Mem AccumSpec Accum5Proofs EmaModel EmaSpec EmaProofs Ema2Proofs Ema3Proofs.
From Coq Require Import Reals Lra.
Local Open Scope Z_scope.

(** ** C65.  Running sums and products. *)
Theorem C65_running :
  forall (T U : Type) keys (src : list T) n im rm,
  0 <= n -> Forall (fun k => k <= n) keys -> length src = length keys -> mask_ok (length keys) im -> mask_ok (length keys) rm ->
  forall (inv : U) conv zero add,
  exists res, CumOp keys src n im rm inv conv zero add = Some res /\ by_group 1 keys (Some inv) (run_row keys src im rm (op_of conv zero add)) res.
Proof. exact (@CumOp_ok). Qed.
Print Assumptions C65_running.

Example C65_sums :
  CumOp [1; 2; 1; 0; 1; 2] [10; 20; 30; 40; 50; 60] 2 (Some [true; true; true; true; true; false]) (Some [false; false; false; false; true; true]) INV64 (fun x => x) 0 add64
  = Some [Some 10; Some 20; Some 40; Some INV64; Some 50; Some 20].
Proof. vm_compute. reflexivity. Qed.

(** ** C66.  The number of a row in its group. *)
Theorem C66_nth :
  forall keys n im, 0 <= n -> Forall (fun k => k <= n) keys -> mask_ok (length keys) im -> Z.of_nat (length keys) < 2 ^ 31 ->
  exists res, FindNth keys n im = Some res /\ by_group 1 keys (Some 0) (nth_of keys im) res.
Proof. intros; now apply (FindNth_ok keys keys). Qed.
Print Assumptions C66_nth.

Example C66_values : FindNth [1; 2; 1; 0; 1] 2 (Some [true; true; false; true; true]) = Some [Some 1; Some 1; Some 0; Some 0; Some 2].
Proof. vm_compute. reflexivity. Qed.

(** ** C67.  Running extremes.  Missing: the rows of no group (C67_unwritten_refuted, C67_bin0_refuted). *)
Theorem C67_nan_partial :
  forall (T : Type) keys (src : list T) n im rm inv valid compare,
  0 <= n -> Forall (fun k => k <= n) keys -> length src = length keys -> mask_ok (length keys) im -> mask_ok (length keys) rm -> valid inv = false -> order_ok valid compare ->
  (plain im rm = true -> Forall (fun k => 0 <= k) keys) ->
  exists res, CumNanExtreme keys src n im rm inv valid compare = Some res /\
    by_group (if plain im rm then 0 else 1) keys None (run_row keys src im rm (nan_extreme valid compare)) res.
Proof. exact (@CumNanExtreme_ok). Qed.
Print Assumptions C67_nan_partial.

Theorem C67_full_partial :
  forall (T : Type) keys (src : list T) n im rm inv valid compare,
  0 <= n -> Forall (fun k => k <= n) keys -> length src = length keys -> mask_ok (length keys) im -> mask_ok (length keys) rm -> valid inv = false -> order_ok valid compare ->
  (plain im rm = true -> Forall (fun k => 0 <= k) keys) ->
  exists res, CumExtreme keys src n im rm inv valid compare = Some res /\
    by_group (if plain im rm then 0 else 1) keys None (run_row keys src im rm (full_extreme valid compare)) res.
Proof. exact (@CumExtreme_ok). Qed.
Print Assumptions C67_full_partial.

Example C67_values :
  CumNanExtreme [1; 2; 1; 1; 2] [5; 7; INV64; 3; 9] 2 None (Some [false; false; false; false; true]) INV64 ok64 Z.ltb = Some [Some 5; Some 7; Some 5; Some 3; Some 9] /\
  CumExtreme [1; 2; 1; 1; 2] [5; 7; INV64; 3; 9] 2 None (Some [false; false; false; false; true]) INV64 ok64 Z.ltb = Some [Some 5; Some 7; Some INV64; Some INV64; Some 9] /\
  order_ok ok64 Z.ltb.
Proof. split; [vm_compute; reflexivity |]. split; [vm_compute; reflexivity | exact z_order]. Qed.

(** with a mask nothing is written for a row of no group *)
Theorem C67_unwritten_refuted :
  exists keys (src : list Z) rm res, accepted (V := Z) keys None (Some rm) None /\ CumNanExtreme keys src 1 None (Some rm) INV64 ok64 Z.ltb = Some res /\ nth_error keys 0 = Some 0 /\ nth_error res 0 = Some None.
Proof. exists [0; 1], [5; 6], [false; false]. eexists. split; [repeat split |]. split; [vm_compute; reflexivity |]. auto. Qed.
Print Assumptions C67_unwritten_refuted.

(** without masks bin 0 is a group like the others, and a negative key is used as an index *)
Theorem C67_bin0_refuted :
  exists keys (src : list Z), CumExtreme keys src 1 None None INV64 ok64 Z.ltb = Some [Some 5; Some 4] /\ keys = [0; 0] /\
    CumExtreme [-1] [5] 1 None None INV64 ok64 Z.ltb = None.
Proof. exists [0; 0], [5; 4]. vm_compute. auto. Qed.
Print Assumptions C67_bin0_refuted.

(** ** C68.  Decayed sums, over the reals.  Missing: both masks at once (C68_both_refuted), times of which the difference is not
    exact (C68_unsigned_refuted), rounding. *)
Theorem C68_decay_partial :
  forall (T V : Type) keys (src : list T) (times : list V) n im rm (inv : R) ofT zeroT rate delta time time0,
  0 <= n -> Forall (fun k => k <= n) keys -> length src = length keys -> length times = length keys -> mask_ok (length keys) im -> mask_ok (length keys) rm ->
  im = None \/ rm = None -> ofT zeroT = 0%R -> (forall t, In t times -> exists d, delta t time0 = Some d) ->
  in_group keys times (fun ti tj => delta ti tj = Some (time ti - time tj)%R) ->
  exists res, EmaDecay keys src times n im rm inv ofT 0%R Rplus Rmult delta (fun x => exp (- rate * x)) time0 zeroT = Some res /\
    by_group 1 keys (Some inv) (decay_row ofT time rate keys src times im rm) res.
Proof. exact (@EmaDecay_ok). Qed.
Print Assumptions C68_decay_partial.

Example C68_applies :
  exists res, EmaDecay [1; 1; 0] [1; 2; 3]%R [10; 20; 30]%R 1 None (Some [false; true; false]) (-1)%R (fun x => x) 0%R Rplus Rmult (fun a b => Some (a - b)%R) (fun x => exp (- 2 * x)) 0%R 0%R = Some res /\
    by_group 1 [1; 1; 0] (Some (-1)%R) (decay_row (fun x => x) (fun x => x) 2%R [1; 1; 0] [1; 2; 3]%R [10; 20; 30]%R None (Some [false; true; false])) res.
Proof. apply C68_decay_partial; repeat constructor; auto; try lia; eauto. Qed.

Theorem C68_both_refuted :
  exists keys (src times : list R) im rm,
  EmaDecay keys src times 1 (Some im) (Some rm) (-1)%R (fun x => x) 0%R Rplus Rmult (fun a b => Some (a - b)%R) (fun x => exp (- 1 * x)) 0%R 0%R = Some [Some 0%R] /\
  accepted keys (Some im) (Some rm) (Some times) /\ ~ decay_row (fun x => x) (fun x => x) 1%R keys src times (Some im) (Some rm) 0 0%R.
Proof. exact decay_both. Qed.
Print Assumptions C68_both_refuted.

Theorem C68_unsigned_refuted :
  exists keys (src : list R) (times : list Z) res r,
  EmaDecay keys src times 1 None None (-1)%R (fun x => x) 0%R Rplus Rmult deltaU32 (fun x => exp (- 1 * x)) 0 0%R = Some res /\
  accepted keys None None (Some times) /\ nth_error res 1 = Some (Some r) /\ ~ decay_row (fun x => x) IZR 1%R keys src times None None 1 r.
Proof. exact decay_unsigned. Qed.
Print Assumptions C68_unsigned_refuted.

(** ** C69.  Moving averages, over the reals.  Missing: resets (C69_reset_refuted), rows that are not included
    (C69_excluded_refuted), integer times (C69_int64_refuted), rounding. *)
Theorem C69_normal_partial :
  forall (T V : Type) keys (src : list T) (times : list V) n (inv : R) ofT zeroT negative decay delta time0 largeNegative ws0,
  Forall (fun k => 0 <= k <= n) keys -> length src = length keys -> length times = length keys -> Z.of_nat (length ws0) = n + 1 ->
  (forall t, In t times -> exists d, delta t largeNegative = Some d) -> in_group keys times (fun ti tj => exists d, delta ti tj = Some d) ->
  exists res, EmaNormal keys src times None None inv ofT 0%R 1%R Rplus Rminus Rmult delta negative decay time0 largeNegative zeroT ws0 = Some res /\
    by_group 1 keys (Some inv) (average_row ofT (weight_of delta negative decay) keys src times) res.
Proof. exact (@EmaNormal_ok). Qed.
Print Assumptions C69_normal_partial.

Theorem C69_weighted_partial :
  forall (T : Type) keys (src : list T) n (inv : R) ofT zeroT ws0,
  Forall (fun k => 0 <= k <= n) keys -> length src = length keys -> Z.of_nat (length ws0) = n + 1 ->
  forall w, exists res, EmaWeighted keys src None None inv ofT 0%R 1%R Rplus Rminus Rmult zeroT w ws0 = Some res /\
    by_group 1 keys (Some inv) (average_row ofT (fun _ _ => w) keys src (repeat tt (length keys))) res.
Proof. exact (@EmaWeighted_ok). Qed.
Print Assumptions C69_weighted_partial.

Example C69_applies :
  exists res, EmaNormal [1; 0; 1] [1; 2; 3]%R [10; 20; 30]%R None None (-1)%R (fun x => x) 0%R 1%R Rplus Rminus Rmult (fun a b => Some (a - b)%R) negativeR (fun x => exp (- 2 * x)) 0%R (- 2 ^ 63)%R 0%R [7; 7]%R = Some res /\
    by_group 1 [1; 0; 1] (Some (-1)%R) (average_row (fun x => x) (weight_of (fun a b => Some (a - b)%R) negativeR (fun x => exp (- 2 * x))) [1; 0; 1] [1; 2; 3]%R [10; 20; 30]%R) res.
Proof. apply C69_normal_partial with (n := 1); [repeat constructor; lia | reflexivity.. | |]; unfold in_group; eauto. Qed.

Theorem C69_reset_refuted :
  exists keys (src times : list R) rm r,
  EmaNormal keys src times None (Some rm) (-1)%R (fun x => x) 0%R 1%R Rplus Rminus Rmult (fun a b => Some (a - b)%R) negativeR (fun x => exp (- 1 * x)) 0%R (- 2 ^ 63)%R 0%R [0; 0]%R = Some [Some r] /\
  accepted keys None (Some rm) (Some times) /\ nth_error src 0 = Some 5%R /\ r = 0%R.
Proof. exact normal_reset. Qed.
Print Assumptions C69_reset_refuted.

Theorem C69_excluded_refuted :
  exists keys (src src' times : list R) im r r',
  EmaNormal keys src times (Some im) None (-1)%R (fun x => x) 0%R 1%R Rplus Rminus Rmult (fun a b => Some (a - b)%R) negativeR (fun x => exp (0 * x)) 0%R (- 2 ^ 63)%R 0%R [0; 0]%R = Some r /\
  EmaNormal keys src' times (Some im) None (-1)%R (fun x => x) 0%R 1%R Rplus Rminus Rmult (fun a b => Some (a - b)%R) negativeR (fun x => exp (0 * x)) 0%R (- 2 ^ 63)%R 0%R [0; 0]%R = Some r' /\
  (forall i, nth i im false = true -> nth_error src i = nth_error src' i) /\ r <> r'.
Proof. exact normal_excluded. Qed.
Print Assumptions C69_excluded_refuted.

Theorem C69_int64_refuted :
  exists keys (src : list R) (times : list Z),
  EmaNormal keys src times None None (-1)%R (fun x => x) 0%R 1%R Rplus Rminus Rmult delta64 negativeR (fun x => exp (- 1 * x)) 0 (- 2 ^ 63) 0%R [0; 0]%R = None /\
  accepted keys None None (Some times).
Proof. exact normal_int64. Qed.
Print Assumptions C69_int64_refuted.

(** ** C70.  The type that is written is the type that was allocated.  Missing: long double times (C70_longdouble_refuted); keys and
    columns are not checked (C70_key_refuted, C70_column_refuted). *)
Theorem C70_types_partial :
  forall f it tt o u, GetEmaByFunction f it tt = Some (o, u) -> tt <> LD -> o = u.
Proof. exact types_ok. Qed.
Print Assumptions C70_types_partial.

Example C70_found : GetEmaByFunction DECAY I8 I64 = Some (F64, F64) /\ GetEmaByFunction CUMSUM I8 Other = Some (I64, I64).
Proof. auto. Qed.

Theorem C70_longdouble_refuted :
  exists f it tt o u, GetEmaByFunction f it tt = Some (o, u) /\ item o < item u.
Proof. exists DECAY, F64, LD, F64, LD. split; reflexivity. Qed.
Print Assumptions C70_longdouble_refuted.

Theorem C70_key_refuted :
  exists keys (src : list Z), accepted (V := Z) keys None None None /\ length src = length keys /\ CumOp keys src 1 None None INV64 (fun x => x) 0 add64 = None.
Proof. exists [1; 2], [5; 6]. repeat split. Qed.
Print Assumptions C70_key_refuted.

Theorem C70_column_refuted :
  exists keys (src : list Z), accepted (V := Z) keys None None None /\ Forall (fun k => 0 <= k <= 1) keys /\ CumOp keys src 1 None None INV64 (fun x => x) 0 add64 = None.
Proof. exists [1; 1], [5]. split; [repeat split |]. split; [repeat constructor; lia | reflexivity]. Qed.
Print Assumptions C70_column_refuted.
