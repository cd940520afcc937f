(** What the MultiKey functions should return. *)
From Verif Require Import Base Mem AllModel EaModel EaSpec MkModel.
From Verif Require BnSpec HashSpec.
Local Open Scope Z_scope.

(** A column of [n] items: an array of a known type, of any stride; an item has as many bytes as the type says. *)
Definition item_ok (size : Z) (x : list Z) : Prop := Z.of_nat (length x) = size /\ Forall (fun b => 0 <= b < 256) x.
Definition column_ok (n : Z) (c : key_column) : Prop :=
  match c with
  | KArray size a => 0 <= a_dtype a <= 20 /\ (a_dtype a = 11 -> size = 4) /\ (a_dtype a = 12 -> size = 8) /\
      arg_ok n a /\ BnSpec.one_by_one a /\ Forall (item_ok size) (arg_vals [] a)
  | _ => False
  end.
Definition items (c : key_column) : list (list Z) := match c with KArray _ a => arg_vals [] a | _ => [] end.
Definition size_of (c : key_column) : Z := match c with KArray size _ => size | _ => 0 end.
Definition total_size (cols : list key_column) : Z := fold_right Z.add 0 (map size_of cols).

(** Row [i]: its item in each column, and whether the filter keeps it. *)
Definition row_at (cols : list key_column) (i : nat) : list (list Z) := map (fun c => nth i (items c) []) cols.
Definition keep_at (filter : param bool) (i : nat) : bool := match filter with PArray a => nth i (arg_vals false a) false | _ => true end.
Definition table (n : Z) (cols : list key_column) : list (list (list Z)) := map (row_at cols) (seq 0 (Z.to_nat n)).
Definition keyed (n : Z) (cols : list key_column) (filter : param bool) : list (list (list Z) * bool) :=
  map (fun i => (row_at cols i, keep_at filter i)) (seq 0 (Z.to_nat n)).

(** The columns and the filter of a call that is accepted. *)
Definition call_ok (n : Z) (cols : list key_column) (filter : param bool) : Prop :=
  0 <= n < 68719476731 /\ cols <> [] /\ Forall (column_ok n) cols /\ mask_given n filter.
(** No hint, or one that is not below the number of different rows. *)
Definition hint_fine (hint : Z) (rows : list (list (list Z))) : Prop :=
  hint = 0 \/ (0 < hint < 68719476731 /\ exists U, incl rows U /\ Z.of_nat (length U) <= hint).
(** The default hash mode, or the other one for rows of more than two bytes. *)
Definition mode_fine (mode : option Z) (cols : list key_column) : Prop :=
  mode = None \/ mode = Some 2 \/ (mode = Some 1 /\ total_size cols <> 1 /\ total_size cols <> 2).

(** Columns that are refused: one is no array or of an unknown type, or two have different lengths. *)
Definition bad_key (c : key_column) : Prop := c = KOther \/ exists size a, c = KArray size a /\ ~ 0 <= a_dtype a <= 20.
Definition columns_bad (cols : list key_column) : Prop :=
  Forall (fun c => (exists m, 0 <= m /\ column_ok m c) \/ bad_key c) cols /\
  ((exists c, In c cols /\ bad_key c) \/ exists c c', In c cols /\ In c' cols /\ length (items c) <> length (items c')).
(** A filter that is refused: no array, not of booleans or of another length. *)
Definition filter_bad (n : Z) (filter : param bool) : Prop :=
  match filter with PNone => False | PArray a => a_dtype a <> 0 \/ a_len a <> n | POther => True end.

(** For examples. *)
Definition bytes (d size : Z) (l : list (list Z)) : key_column := KArray size (mkArg d l 0 1 (Z.of_nat (length l))).
Definition mask (l : list bool) : param bool := PArray (mkArg 0 l 0 1 (Z.of_nat (length l))).
