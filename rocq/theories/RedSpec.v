(** What the reductions should return. *)
From Verif Require Import Base Num LayoutModel LayoutSpec RedModel.
From Coq Require Import Reals Permutation.
Local Open Scope Z_scope.

(** the blocks handed to the cores are not empty and make up the array (in any order) *)
Definition splits {V} (l : list V) (sch : schedule V) : Prop :=
  Permutation (concat (map (@concat V) sch)) l /\ Forall (Forall (fun b => b <> [])) sch.

Definition Zsum (l : list Z) : Z := fold_right Z.add 0 l.
Definition Zabs_sum (l : list Z) : Z := Zsum (map Z.abs l).
Definition Rsum (l : list R) : R := fold_right Rplus 0%R l.
Definition Rabs_sum (l : list R) : R := Rsum (map Rabs l).

(** values of the type *)
Definition in_type (t : ity) (l : list Z) : Prop := Forall (fun x => tmin t <= x <= tmax t) l.
(** the integer returned for an invalid sum: the invalid value of the 64-bit type of the same sign (signed for narrow types) *)
Definition inv64 (t : ity) : Z := match t with U64 => 2 ^ 64 - 1 | _ => - 2 ^ 63 end.

(** the values of a floating-point array that are not NaN *)
Definition reals (l : list (option R)) : list R := flat_map (fun x => match x with Some r => [r] | None => [] end) l.
Definition has_nan (l : list (option R)) : Prop := In None l.
Definition Rmean (xs : list R) : R := (Rsum xs / IZR (Z.of_nat (length xs)))%R.
Definition sq_dev (xs : list R) : list R := map (fun x => (x - Rmean xs) * (x - Rmean xs))%R xs.
Definition Rvar (ddof : Z) (xs : list R) : R := (Rsum (sq_dev xs) / IZR (Z.of_nat (length xs) - ddof))%R.

(** [r] is one of the values of [l], and none beats it *)
Definition extreme (M : vops) (max : bool) (l : list (val M)) (r : val M) : Prop :=
  In r l /\ forall x, In x l -> (if max then vlt M r x else vlt M x r) = false.
Definition all_valid (M : vops) (l : list (val M)) : Prop := forall x, In x l -> vvalid M x = true.
(** min and max: the invalid value as soon as there is one *)
Definition minmax_ok (M : vops) (max : bool) (l : list (val M)) (r : val M) : Prop :=
  (all_valid M l -> extreme M max l r) /\ (~ all_valid M l -> r = vinv M).
(** nanmin and nanmax: among the valid values, the invalid value if there is none *)
Definition nanminmax_ok (M : vops) (max : bool) (l : list (val M)) (r : val M) : Prop :=
  let v := filter (vvalid M) l in (v <> [] -> extreme M max v r) /\ (v = [] -> r = vinv M).

(** position [i] holds the first invalid value, or, if there is none, the first of the extreme values *)
Definition arg_ok (M : vops) (max : bool) (l : list (val M)) (i : nat) : Prop :=
  exists x, nth_error l i = Some x /\
  ((vvalid M x = false /\ forall j y, (j < i)%nat -> nth_error l j = Some y -> vvalid M y = true) \/
   (all_valid M l /\ extreme M max l x /\
    forall j y, (j < i)%nat -> nth_error l j = Some y -> (if max then vlt M y x else vlt M x y) = true)).
(** position [i] holds the first of the extreme values among the valid ones *)
Definition nanarg_ok (M : vops) (max : bool) (l : list (val M)) (i : nat) : Prop :=
  exists x, nth_error l i = Some x /\ vvalid M x = true /\ extreme M max (filter (vvalid M) l) x /\
  forall j y, (j < i)%nat -> nth_error l j = Some y -> vvalid M y = true -> (if max then vlt M y x else vlt M x y) = true.

(** the offsets read are those of the items of the array, each once *)
Definition exact_reads (a : layout) (offs : list Z) : Prop :=
  NoDup offs /\ forall o, In o offs <-> exists idx, valid (dims a) idx /\ offset (strides a) idx = o.
