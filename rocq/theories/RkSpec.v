(** What MultiKeyRolling should return. *)
From Verif Require Import Base Mem AllModel EaModel EaSpec.
From Verif Require Import HashSpec.
From Verif Require Import MkModel MkSpec RkModel.
Local Open Scope Z_scope.

Definition cols_of (k : roll_keys) : list key_column := match k with KeysTuple cols | KeysList cols => cols end.
(** The columns of a call that is accepted: a list, or a tuple of one or two columns. *)
Definition keys_ok (n : Z) (k : roll_keys) : Prop :=
  call_ok n (cols_of k) PNone /\ match k with KeysTuple cols => (length cols <= 2)%nat | KeysList _ => True end.
(** A new object has an address of its own, as long as there are fewer than 2^32 objects. *)
Definition addresses_ok (address : objects -> Z) : Prop := forall h, Z.of_nat (length h) < 2 ^ 32 -> address h <> 0 /\ - 2 ^ 63 <= address h < 2 ^ 63 /\ find h (address h) = None.

(** Calls for several streams in any order: the first call of a stream gets no object, the others the object of the call before. *)
Record batch := { b_stream : nat; b_rows : Z; b_keys : roll_keys; b_hint : Z }.
Fixpoint known (who : nat) (names : list (nat * Z)) : option Z :=
  match names with [] => None | (w, p) :: rest => if Nat.eqb w who then Some p else known who rest end.
Section Play.
  Context (crc_bytes : list Z -> Z) (address : objects -> Z) (junk : nat -> Z).
  Fixpoint play (h : objects) (names : list (nat * Z)) (script : list batch) : outcome (list (list Z * list Z * Z) * objects) :=
    match script with
    | [] => Done ([], h)
    | b :: rest =>
        match MultiKeyRollingCall crc_bytes address junk h (b_keys b) (b_hint b) (known (b_stream b) names) with
        | Done (Some (idx, count, unique, p), h') =>
            match play h' ((b_stream b, p) :: names) rest with
            | Done (outs, h'') => Done ((idx, count, unique) :: outs, h'')
            | Error => Error
            | Undefined => Undefined
            end
        | Done (None, _) => Error
        | Error => Error
        | Undefined => Undefined
        end
    end.
End Play.

(** The rows of a stream, and what the calls returned for them: the group and the running count of each row, and the last number of groups. *)
Definition of_stream (who : nat) (script : list batch) : list batch := filter (fun b => Nat.eqb (b_stream b) who) script.
Definition batch_rows (b : batch) : list (list (list Z)) := table (b_rows b) (cols_of (b_keys b)).
Definition rows_of (who : nat) (script : list batch) : list (list (list Z)) := concat (map batch_rows (of_stream who script)).
Definition results_of (who : nat) (script : list batch) (outs : list (list Z * list Z * Z)) : list (list Z * list Z * Z) :=
  map snd (filter (fun p => Nat.eqb (b_stream (fst p)) who) (combine script outs)).
Definition counted (outs : list (list Z * list Z * Z)) : list (Z * Z) := concat (map (fun o => combine (fst (fst o)) (snd (fst o))) outs).
Definition last_number (outs : list (list Z * list Z * Z)) : Z := last (map snd outs) 0.

(** Every call is accepted; the rows of a stream have the same columns of at most 16 bytes in total; the first hint of a stream (0: the number of its
    rows) is not below the number of different rows of the stream. *)
Definition room (b : batch) (rows : list (list (list Z))) : Prop :=
  0 <= b_hint b < 68719476731 /\ exists U, incl rows U /\ Z.of_nat (length U) <= (if b_hint b =? 0 then b_rows b else b_hint b).
Definition script_ok (script : list batch) : Prop :=
  (forall b, In b script -> keys_ok (b_rows b) (b_keys b) /\ total_size (cols_of (b_keys b)) <= 16 /\ - 2 ^ 63 <= b_hint b < 2 ^ 63 /\ b_hint b <> -1) /\
  (forall b c, In b script -> In c script -> b_stream b = b_stream c -> map size_of (cols_of (b_keys b)) = map size_of (cols_of (b_keys c))) /\
  (forall who b rest, of_stream who script = b :: rest -> room b (rows_of who script)).
