(** What a conversion between number types should do. *)
From Coq Require Import Reals SpecFloat.
From Flocq Require Import Core BinarySingleNaN.
From Verif Require Import Base ConvModel.
Local Open Scope Z_scope.

(** an item of type [t] *)
Definition typed (t : dtype) (v : val) : Prop :=
  match v with
  | VI z => is_float t = false /\ lo t <= z <= hi t
  | VF f => is_float t = true /\ valid_binary (prec t) (emax t) f = true
  end.
(** the invalid value of a type; bool has none *)
Definition invalid (t : dtype) : option val :=
  match t with
  | Bool => None
  | I8 => Some (VI (-128)) | I16 => Some (VI (-32768)) | I32 => Some (VI (-2147483648)) | I64 => Some (VI (-9223372036854775808))
  | U8 => Some (VI 255) | U16 => Some (VI 65535) | U32 => Some (VI 4294967295) | U64 => Some (VI 18446744073709551615)
  | F32 | F64 | F80 => Some (VF S754_nan)
  end.
(** the real number that an item stands for *)
Definition denotes (v : val) (r : R) : Prop :=
  match v with
  | VI z => r = IZR z
  | VF f => is_finite_SF f = true /\ SF2R radix2 f = r
  end.
(** some item of type [t] is the number [r] *)
Definition representable (t : dtype) (r : R) : Prop := exists y, typed t y /\ denotes y r.

(** [conv] preserves numbers and invalid values from [t] to [u] *)
Definition keeps_numbers (conv : dtype -> dtype -> val -> option val) (t u : dtype) : Prop :=
  forall x r, typed t x -> invalid t <> Some x -> denotes x r -> representable u r ->
  exists y, conv t u x = Some y /\ typed u y /\ denotes y r.
Definition keeps_invalid (conv : dtype -> dtype -> val -> option val) (t u : dtype) : Prop :=
  forall x y, invalid t = Some x -> invalid u = Some y -> conv t u x = Some y.

(** every integer of type [t] that is not the invalid value is a valid item of type [u] *)
Definition includes (u t : dtype) : Prop :=
  forall z, typed t (VI z) -> invalid t <> Some (VI z) -> representable u (IZR z) /\ invalid u <> Some (VI z).

(** the nearest number of a floating point type, ties to even *)
Definition nearest (u : dtype) (r : R) : R := round radix2 (SpecFloat.fexp (prec u) (emax u)) ZnearestE r.

(** [u] holds every integer of [t] *)
Definition holds_integers (t u : dtype) : bool :=
  if is_float t then is_float u && (prec t <=? prec u)
  else if is_float u then (- 2 ^ prec u <=? lo t) && (hi t <=? 2 ^ prec u) else (lo u <=? lo t) && (hi t <=? hi u).

(** [arr] with the items replaced for which [w] has a value *)
Definition replaced {A} (w : nat -> option A) (arr : list A) : list A :=
  map (fun p : nat * A => match w (fst p) with Some y => y | None => snd p end) (combine (seq 0 (length arr)) arr).
(** row [i] of [vals], converted by [g], where the mask is set *)
Definition masked {A B} (mask : list bool) (vals : list A) (g : A -> B) (i : nat) : option B :=
  match nth_error mask i, nth_error vals i with Some true, Some x => Some (g x) | _, _ => None end.
