(** What GroupByAll32 should return. *)
From Verif Require Import Base Mem AccumSpec VarSpec AllModel.
Local Open Scope Z_scope.

(** The functions: sum, mean, min, max, var, std and their variants that skip invalid values. *)
Definition functions : list Z := [0; 1; 2; 3; 4; 5; 50; 51; 52; 53; 54; 55].
Definition unsigned (d : Z) : bool := existsb (Z.eqb d) [2; 4; 6; 8; 10].
Definition floating (d : Z) : bool := existsb (Z.eqb d) [11; 12; 13].
(** The type of the result: sums of integers have 64 bits, minimum and maximum have the type of the column, the others are float32 for float32
    and otherwise float64. *)
Definition out_dtype (func d : Z) : Z :=
  if (func =? 0) || (func =? 50) then if floating d then d else if unsigned d then 8 else 7
  else if existsb (Z.eqb func) [2; 3; 52; 53] then (if d =? 9 then 7 else if d =? 10 then 8 else d)
  else if d =? 11 then 11 else 12.

Section Spec.
  Context {F : Type} (A : arith F).
  (** The result of a group in terms of its values; U is the type of the result. *)
  Definition group_spec (func d : Z) (vals : list (num F)) (r : num F) : Prop :=
    match stored d, stored (out_dtype func d) with
    | Some T, Some U =>
        let f32 := d =? 11 in
        let D := if f32 then D64 else U in
        let last := if f32 then narrow A U else fun x => x in
        match func with
        | 0 => if f32 then sumf_spec (ok A T) (inval A U) (zero_of A D64) (conv A D64) (narrow A U) (add A D64) vals r
               else sum_spec (ok A T) (inval A U) (zero_of A U) (conv A U) (add A U) vals r
        | 50 => if f32 then nansumf_spec (ok A T) (zero_of A D64) (conv A D64) (narrow A U) (add A D64) vals r
                else nansum_spec (ok A T) (zero_of A U) (conv A U) (add A U) vals r
        | 1 => if f32 then meanf_spec (ok A T) (inval A U) (zero_of A D64) (conv A D64) (narrow A U) (add A D64) (divn A D64) vals r
               else mean_spec (ok A T) (inval A U) (zero_of A U) (conv A U) (add A U) (divn A U) vals r
        | 51 => if f32 then nanmeanf_spec (ok A T) (inval A U) (zero_of A D64) (conv A D64) (narrow A U) (add A D64) (divn A D64) vals r
                else nanmean_spec (ok A T) (inval A U) (zero_of A U) (conv A U) (add A U) (divn A U) vals r
        | 2 => min_spec (ok A T) (inval A U) (conv A U) (less A U) vals r
        | 3 => min_spec (ok A T) (inval A U) (conv A U) (greater A U) vals r
        | 52 => nanmin_spec (ok A T) (inval A U) (conv A U) (less A U) vals r
        | 53 => nanmin_spec (ok A T) (inval A U) (conv A U) (greater A U) vals r
        | 4 => var_spec (ok A T) (inval A U) (zero_of A D) (conv A D) last (add A D) (sub A D) (mul A D) (divn A D) vals r
        | 54 => nanvar_spec (ok A T) (inval A U) (zero_of A D) (conv A D) last (add A D) (sub A D) (mul A D) (divn A D) vals r
        | 5 => std_spec (ok A T) (inval A U) (zero_of A D) (conv A D) last (add A D) (sub A D) (mul A D) (divn A D) (sqrt_of A U) vals r
        | 55 => nanstd_spec (ok A T) (inval A U) (zero_of A D) (conv A D) last (add A D) (sub A D) (mul A D) (divn A D) (sqrt_of A U) vals r
        | _ => False
        end
    | _, _ => False
    end.

  (** The arithmetic of the machine: the order of the numbers, NaN, conversions. *)
  Definition arith_ok : Prop :=
    order_ok (fun x => negb (isnan A x)) (fltb A) /\ (forall U, isnan A (fnanv A U) = true) /\ (forall U x, isnan A (cast A U x) = isnan A x) /\
    (forall U z, isnan A (of_int A U z) = false) /\ cast A (CF 4) (fzero A (CF 8)) = fzero A (CF 4).
  (** ... that never rounds; then the order of additions does not matter *)
  Definition arith_exact : Prop :=
    (forall U V, fzero A U = fzero A V /\ fnanv A U = fnanv A V /\ fadd A U = fadd A V /\ fdivn A U = fdivn A V) /\
    (forall U x, cast A U x = x) /\ (forall U, exact_add (fzero A U) (fadd A U)) /\
    (forall U s n, isnan A s = true -> fdivn A U s n = fnanv A U).

  (** The elements of the key. *)
  Definition key_vals (k : keyarg) : list Z :=
    map (fun i => nth (Z.to_nat (k_start k + Z.of_nat i * k_step k)) (k_mem k) 0) (seq 0 (Z.to_nat (k_len k))).
  (** A one-dimensional array of int8, int16, int32 or int64 inside of its memory. *)
  Definition key_ok (k : keyarg) : Prop :=
    k_dims k = 1 /\ In (k_dtype k) [1; 3; 5; 7; 9] /\ 0 <= k_len k /\ 0 <= k_start k <= Z.of_nat (length (k_mem k)) /\
    (forall i, 0 <= i < k_len k -> 0 <= k_start k + i * k_step k < Z.of_nat (length (k_mem k))).

  (** One column, its function and its range of bins. *)
  Record query := mkQ { q_col : column F; q_func : Z; q_low : Z; q_high : Z }.
  (** A column of [n] elements; the stride of a single element is what it would be with more elements. *)
  Definition column_ok (n : Z) (c : column F) : Prop :=
    c_ndim c = 1 /\ 0 <= c_dtype c <= 13 /\ Z.of_nat (length (c_vals c)) = n /\ (n = 1 -> c_stride c = c_item c) /\
    (c_dtype c = 0 -> forall v, In v (c_vals c) -> v = I 0 \/ v = I 1).
  Definition query_ok (n unique : Z) (q : query) : Prop :=
    column_ok n (q_col q) /\ In (q_func q) functions /\ 0 <= q_low q <= q_high q /\ q_high q <= unique + 1.
  Definition GroupBy (m : machine F) (qs : list query) (key : keyarg) (unique : Z) : outcome (list (Z * list (num F))) :=
    GroupByAll32 A m (map (fun q => OArray (q_col q)) qs) key unique (map q_func qs) (map q_low qs) (map q_high qs).
  Definition answers (unique : Z) (key : keyarg) (q : query) (r : Z * list (num F)) : Prop :=
    fst r = out_dtype (q_func q) (c_dtype (q_col q)) /\ Z.of_nat (length (snd r)) = unique + 1 /\
    reduced (group_spec (q_func q) (c_dtype (q_col q))) (q_low q) (q_high q) (combine (key_vals key) (c_vals (q_col q))) (snd r).

  (** Each block of rows is given to one core. *)
  Definition machine_ok (m : machine F) (n : Z) : Prop :=
    (0 < m_chunk m)%nat /\ m_cores m <> [] /\ Permutation (concat (m_cores m)) (seq 0 (length (chunks (m_chunk m) (Z.to_nat n)))).

  (** A call that is scattered over the threads: one column and few groups. *)
  Definition scattered_call (m : machine F) (qs : list query) (key : keyarg) (unique : Z) : Prop :=
    m_item m = true /\ (unique + 1) * 10 < k_len key /\ exists q, qs = [q] /\ scatters (q_func q) = true.
End Spec.

(** A column that can be read. *)
Definition shaped {F} (n : Z) (c : column F) : Prop :=
  c_ndim c = 1 /\ c_dtype c <> -1 /\ Z.of_nat (length (c_vals c)) = n /\ (n = 1 -> c_stride c = c_item c).

(** ** For examples: whole numbers with NaN (None), which are never rounded; the quotient is the whole part *)
Definition lifted (f : Z -> Z -> Z) (a b : option Z) : option Z := match a, b with Some x, Some y => Some (f x y) | _, _ => None end.
Definition whole : arith (option Z) :=
  mkArith (fun _ => Some 0) (fun _ => None) (fun x => match x with None => true | _ => false end)
    (fun a b => match a, b with Some x, Some y => x <? y | _, _ => false end) (fun _ z => Some z) (fun _ x => x)
    (fun _ => lifted Z.add) (fun _ => lifted Z.sub) (fun _ => lifted Z.mul) (fun _ a n => option_map (fun x => x / n) a) (fun _ => option_map Z.sqrt).
(** a machine without threads; one with two threads and blocks of four rows; memory that is not initialised holds 77 *)
Definition dirt : nat -> Z -> num (option Z) := fun _ _ => I 77.
Definition one_thread : machine (option Z) := mkM false 4 [[]] dirt.
Definition two_threads : machine (option Z) := mkM true 4 [[2; 0]; [1]]%nat dirt.
Definition ints (d : Z) (l : list Z) : column (option Z) := mkCol d 1 (map I l) 4 4.
Definition floats (d : Z) (l : list (option Z)) : column (option Z) := mkCol d 1 (map R l) 4 4.
Definition a_key (l : list Z) : keyarg := mkKey 5 1 l 0 1 (Z.of_nat (length l)).

(** ** What [group_spec] means for integers, without the operations of the model *)
(* the least and the greatest value of a type, and its invalid value *)
Definition int_type (d : Z) : option (Z * Z * Z) :=
  match d with
  | 0 => Some (0, 1, -128)
  | 1 => Some (-128, 127, -128) | 2 => Some (0, 255, 255)
  | 3 => Some (-32768, 32767, -32768) | 4 => Some (0, 65535, 65535)
  | 5 => Some (-2147483648, 2147483647, -2147483648) | 6 => Some (0, 4294967295, 4294967295)
  | 7 | 9 => Some (-9223372036854775808, 9223372036854775807, -9223372036854775808) | 8 | 10 => Some (0, 18446744073709551615, 18446744073709551615)
  | _ => None
  end.
(* [z] is the sum in 64 bits *)
Definition sum64 (d : Z) (zs : list Z) (z : Z) : Prop :=
  (2 ^ 64 | z - fold_right Z.add 0 zs) /\ if unsigned d then 0 <= z < 2 ^ 64 else - 2 ^ 63 <= z < 2 ^ 63.
Definition lowest (zs : list Z) (z : Z) : Prop := In z zs /\ forall y, In y zs -> z <= y.
Definition highest (zs : list Z) (z : Z) : Prop := In z zs /\ forall y, In y zs -> y <= z.
Definition int_result (func d missing : Z) (zs : list Z) (z : Z) : Prop :=
  let present := filter (fun y => negb (y =? missing)) zs in
  match func with
  | 0 => if existsb (Z.eqb missing) zs then z = (if unsigned d then 2 ^ 64 - 1 else - 2 ^ 63) else sum64 d zs z
  | 50 => sum64 d present z
  | 2 => if existsb (Z.eqb missing) zs || (length zs =? 0)%nat then z = missing else lowest zs z
  | 3 => if existsb (Z.eqb missing) zs || (length zs =? 0)%nat then z = missing else highest zs z
  | 52 => if (length present =? 0)%nat then z = missing else lowest present z
  | 53 => if (length present =? 0)%nat then z = missing else highest present z
  | _ => False
  end.
