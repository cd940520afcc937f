(** What the group-by reductions should return. *)
From Verif Require Import Base Mem Num.
Local Open Scope Z_scope.

Section Spec.
  Context {T U : Type}.

  (** The values of the rows whose key is [g], in row order. *)
  Definition group_vals (rows : list (Z * T)) (g : Z) : list T := map snd (filter (fun p => fst p =? g) rows).

  (** [res] holds for every bin of the range the reduction [P] of that group's values. *)
  Definition reduced (P : list T -> U -> Prop) (low high : Z) (rows : list (Z * T)) (res : list U) : Prop :=
    forall g, low <= g < high -> exists r, nth_error res (Z.to_nat g) = Some r /\ P (group_vals rows g) r.

  (** the elements outside the range are those of [out0] *)
  Definition outside_kept (low high : Z) (out0 res : list U) : Prop :=
    forall g, ~ low <= Z.of_nat g < high -> nth_error res g = nth_error out0 g.

  Context (okT : T -> bool) (uinv zero : U) (conv : T -> U) (add : U -> U -> U) (div : U -> Z -> U) (lt : U -> U -> bool).

  Definition total (vals : list T) : U := fold_left (fun s x => add s (conv x)) vals zero.

  (** sum: one invalid value makes the sum invalid; no values: zero *)
  Definition sum_spec (vals : list T) (r : U) : Prop := r = if forallb okT vals then total vals else uinv.
  (** nansum: invalid values are skipped *)
  Definition nansum_spec (vals : list T) (r : U) : Prop := r = total (filter okT vals).
  (** mean: one invalid value makes it invalid; no values: invalid *)
  Definition mean_spec (vals : list T) (r : U) : Prop :=
    r = if forallb okT vals && negb (length vals =? 0)%nat then div (total vals) (Z.of_nat (length vals)) else uinv.
  Definition nanmean_spec (vals : list T) (r : U) : Prop := mean_spec (filter okT vals) r.

  Definition least (l : list U) (m : U) : Prop := In m l /\ forall y, In y l -> lt y m = false.
  (** min: the least value; one invalid value or no values: invalid *)
  Definition min_spec (vals : list T) (r : U) : Prop :=
    if forallb okT vals && negb (length vals =? 0)%nat then least (map conv vals) r else r = uinv.
  Definition nanmin_spec (vals : list T) (r : U) : Prop := min_spec (filter okT vals) r.
End Spec.

(** The float32 functions add in float64 and cast the result. *)
Section FloatSpec.
  Context {T U D : Type} (okT : T -> bool) (uinv : U) (zeroD : D) (convD : T -> D) (castf : D -> U)
          (addD : D -> D -> D) (divD : D -> Z -> D).
  Definition sumf_spec (vals : list T) (r : U) : Prop := r = if forallb okT vals then castf (total zeroD convD addD vals) else uinv.
  Definition nansumf_spec (vals : list T) (r : U) : Prop := r = castf (total zeroD convD addD (filter okT vals)).
  Definition meanf_spec (vals : list T) (r : U) : Prop :=
    r = if forallb okT vals && negb (length vals =? 0)%nat then castf (divD (total zeroD convD addD vals) (Z.of_nat (length vals))) else uinv.
  Definition nanmeanf_spec (vals : list T) (r : U) : Prop := meanf_spec (filter okT vals) r.
End FloatSpec.

(** Exact addition: rearranging a sum does not change it (integers modulo 2^64 satisfy it, floating point
    numbers only when no addition rounds). *)
Definition exact_add {U} (zero : U) (add : U -> U -> U) : Prop :=
  (forall a b, add a b = add b a) /\ (forall a b c, add (add a b) c = add a (add b c)) /\ add zero zero = zero.

(** The order of a type on its valid values. *)
Definition order_ok {U} (ok : U -> bool) (lt : U -> U -> bool) : Prop :=
  (forall a, lt a a = false) /\
  (forall a b c, lt a b = true -> lt b c = true -> lt a c = true) /\
  (forall a b c, ok a = true -> ok b = true -> ok c = true -> lt a b = false -> lt b c = false -> lt a c = false).
Definition order_total {U} (ok : U -> bool) (lt : U -> U -> bool) : Prop :=
  forall a b, ok a = true -> ok b = true -> lt a b = false -> lt b a = false -> a = b.

(** The rows cut into the blocks of [c] rows that the threads get. *)
Definition row_blocks {A} (c : nat) (rows : list A) : list (list A) :=
  map (fun b => firstn (snd b) (skipn (fst b) rows)) (chunks c (length rows)).

(** Each block is given to exactly one core. *)
Definition assigned {A} (c : nat) (rows : list A) (asg : list (list (list A))) : Prop :=
  Permutation (concat asg) (row_blocks c rows).

(** ** Instances *)
(** int64 addition wraps *)
Definition wrap64 (z : Z) : Z := (z + 2 ^ 63) mod 2 ^ 64 - 2 ^ 63.
Definition add64 (a b : Z) : Z := wrap64 (a + b).
Definition INV64 : Z := - 2 ^ 63.
Definition ok64 (x : Z) : bool := negb (x =? INV64).
(** exact floating point addition *)
Definition fadd (a b : fl) : fl :=
  match a, b with
  | NaN, _ | _, NaN => NaN
  | NInf, PInf | PInf, NInf => NaN
  | NInf, _ | _, NInf => NInf
  | PInf, _ | _, PInf => PInf
  | Fin x, Fin y => Fin (x + y)
  end.
Definition fok (x : fl) : bool := negb (is_nan x).

(** Two results agree on the bins of the range. *)
Definition agree {U} (low high : Z) (r1 r2 : list U) : Prop :=
  forall g, low <= g < high -> nth_error r1 (Z.to_nat g) = nth_error r2 (Z.to_nat g).

(** A run of the scattered group-by: [junks] and [out0] are the (uninitialised) buffers, [out1] the one of the
    sequential run. *)
Definition scattered {T U J} (low high : Z) (c : nat) (rows : list (Z * T)) (asg : list (list (list (Z * T)))) (junks : list (list J)) (out0 out1 : list U) : Prop :=
  (0 < c)%nat /\ assigned c rows asg /\ asg <> [] /\ length junks = length asg /\
  0 <= low <= high /\ high <= Z.of_nat (length out0) /\ length out1 = length out0 /\ Forall (fun j => length j = length out0) junks.
