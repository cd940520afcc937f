(** Numbers with the special values of floating point: only the order and exact arithmetic on finite values
    are represented (finite values are integers in some unit; rounding is not modelled). *)
From Verif Require Import Base.
Local Open Scope Z_scope.

Inductive fl := NaN | NInf | Fin (z : Z) | PInf.

(* IEEE comparisons: every comparison with NaN is false, != is true *)
Definition flt (a b : fl) : bool :=
  match a, b with
  | NaN, _ | _, NaN => false
  | NInf, NInf => false | NInf, _ => true | _, NInf => false
  | PInf, _ => false | _, PInf => true
  | Fin x, Fin y => x <? y
  end.
Definition feq (a b : fl) : bool :=
  match a, b with
  | NInf, NInf | PInf, PInf => true
  | Fin x, Fin y => x =? y
  | _, _ => false
  end.
Definition fle (a b : fl) : bool := flt a b || feq a b.
Definition is_nan (a : fl) : bool := match a with NaN => true | _ => false end.
Definition is_finite (a : fl) : bool := match a with Fin _ => true | _ => false end.

Lemma feq_refl_nan a : feq a a = negb (is_nan a).
Proof. destruct a; simpl; auto. apply Z.eqb_refl. Qed.
Lemma flt_irrefl a : flt a a = false.
Proof. destruct a; simpl; auto. apply Z.ltb_irrefl. Qed.
Lemma flt_trans a b c : flt a b = true -> flt b c = true -> flt a c = true.
Proof. destruct a, b, c; simpl; auto; try discriminate. lia. Qed.
Lemma flt_total a b : is_nan a = false -> is_nan b = false -> flt a b = false -> flt b a = false -> feq a b = true.
Proof. destruct a, b; simpl; auto; try discriminate. lia. Qed.
Lemma feq_eq a b : feq a b = true -> a = b.
Proof. destruct a, b; simpl; auto; try discriminate. intros H. f_equal. lia. Qed.
Lemma flt_asym a b : flt a b = true -> flt b a = false.
Proof. destruct a, b; simpl; auto; try discriminate. lia. Qed.
Lemma fle_not_lt a b : is_nan a = false -> is_nan b = false -> fle a b = negb (flt b a).
Proof. destruct a, b; unfold fle; simpl; auto; try discriminate. lia. Qed.
