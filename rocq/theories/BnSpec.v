(** What the functions of Bins.cpp should return. *)
From Verif Require Import Base Mem Num AllModel AllSpec EaModel EaSpec.
From Verif Require BinsSpec BnModel.
Local Open Scope Z_scope.

(** ** Numbers *)
Section Numbers.
  Context (unit : Z) (round : Z -> Z -> Z).
  Definition bytes (d : Z) : Z := if d =? 11 then 4 else if d =? 12 then 8 else 16.
  (** [z] / [unit] is a number of type [d]. *)
  Definition of_dtype (d z : Z) : Prop :=
    match int_type d with
    | Some (lo, hi, _) => exists k, z = k * unit /\ lo <= k <= hi
    | None => round (bytes d) z = z
    end.
  (** An array of type [d] holds numbers of it; integers are finite. *)
  Definition holds (d : Z) (vs : list fl) : Prop :=
    Forall (fun v => match v with Fin z => of_dtype d z | _ => floating d = true end) vs.
  Definition numeric (a : arg fl) : Prop := 0 <= a_dtype a <= 13 /\ 0 <= a_len a /\ arg_ok (a_len a) a /\ gapless a /\ holds (a_dtype a) (arg_vals NaN a).
  (** The edges: an array of a type that is supported, whose elements are also numbers of the type of the values, and the other way round. *)
  Definition edge_dtypes : list Z := [1; 3; 5; 7; 8; 9; 10; 11; 12].
  Definition edges_given (a : arg fl) (bins : arg Z) : Prop :=
    In (a_dtype bins) edge_dtypes /\ arg_ok (a_len bins) bins /\ gapless bins /\ BinsSpec.edges_ok (a_len bins) /\
    Forall (of_dtype (a_dtype a)) (arg_vals 0 bins) /\ Forall (fun v => match v with Fin z => of_dtype (a_dtype bins) z | _ => True end) (arg_vals NaN a).
  (** A number that is not the invalid one of its type, and finite. *)
  Definition proper (d : Z) (v : fl) : bool :=
    match v with
    | Fin z => match int_type d with Some (_, _, missing) => negb (z =? missing * unit) | None => true end
    | _ => false
    end.
  (** The type of the result has room for the number of edges. *)
  Definition small_dtype (n : Z) : Z := if n <=? 100 then 1 else if n <=? 30000 then 3 else if n <=? 2000000000 then 5 else 7.

  (** ** Counting, and cutting with a sort index *)
  (** The invalid integer of a signed type comes before all others, that of an unsigned type after them: like the infinities. *)
  Definition seen (d : Z) (v : fl) : fl :=
    match v with
    | Fin z => match int_type d with
               | Some (_, _, missing) => if (0 <? d) && (z =? missing * unit) then if unsigned d then PInf else NInf else v
               | None => v
               end
    | _ => v
    end.
  Definition how_many (x : fl) (vs : list fl) : Z := Z.of_nat (length (filter (fun v => match x, v with NaN, NaN | NInf, NInf | PInf, PInf => true | _, _ => false end) vs)).
  (** An index of all rows, in the order of their values. *)
  Definition sorts (idx : arg Z) (vs : list fl) : Prop :=
    In (a_dtype idx) [5; 7; 9] /\ arg_ok (Z.of_nat (length vs)) idx /\
    Permutation (arg_vals 0 idx) (map Z.of_nat (seq 0 (length vs))) /\ BinsSpec.sorted_by_index vs (arg_vals 0 idx).
  Definition one_by_one {X} (a : arg X) : Prop := a_len a <> 1 \/ a_step a = 1.
End Numbers.

(** For examples: whole numbers, no rounding. *)
Definition nums (d : Z) (l : list fl) : arg fl := mkArg d l 0 1 (Z.of_nat (length l)).
Definition ints (d : Z) (l : list Z) : arg Z := mkArg d l 0 1 (Z.of_nat (length l)).
Definition Cuts (x : BnModel.input) (mode : Z) := BnModel.BinsToCutsBSearch 1 (fun _ z => z) in_order false 4 77 x mode.
Definition Halves (x : BnModel.input) (mode : Z) := BnModel.BinsToCutsBSearch 2 (fun _ z => z) in_order false 4 77 x mode.
Definition CountsOf := BnModel.NanInfCountFromSort 1.
Definition CutsSorted := BnModel.BinsToCutsSorted 1 (fun _ z => z) 77.
