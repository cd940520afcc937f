(** What a comparison of two operands should give. *)
From Coq Require Import Reals SpecFloat.
From Flocq Require Import Core.
From Verif Require Import Base ConvModel ConvSpec TwoModel TwoSpec CmpModel.
Local Open Scope Z_scope.

(** the operator holds for two numbers that compare as [c] *)
Definition rel (o : cop) (c : comparison) : Prop :=
  match o with EQ => c = Eq | NE => c <> Eq | GT => c = Gt | GE => c <> Lt | LT => c = Lt | LE => c <> Gt end.
(** IEEE 754: numbers that are not ordered are only different *)
Definition ieee (o : cop) (x y : spec_float) : Prop :=
  match SFcompare x y with Some c => rel o c | None => o = NE end.
(** the byte of a numpy bool *)
Definition truth (P : Prop) (v : Z) : Prop := v = 1 /\ P \/ v = 0 /\ ~ P.
(** the operation gives [n] bools; bool [i] is the truth of [P i] *)
Definition answers (r : outcome Z) (n : nat) (P : nat -> Prop) : Prop :=
  exists l, r = Done l /\ length l = n /\ forall i, (i < n)%nat -> exists v, nth_error l i = Some v /\ truth (P i) v.
(** int64 or longlong *)
Definition long_signed (t : Z) : Prop := In t [7; 9].
