(** What GroupByAllPack32 should return. *)
From Verif Require Import Base Mem GroupSpec AccumSpec GrpxSpec AllModel AllSpec GrpxModel HeapModel HeapSpec PxModel.
Local Open Scope Z_scope.

(** The functions with one result per group: first, nth, last, median, mode, trimmed mean, quantile;
    with one result per row: rolling sum, sum without invalid values, difference, shift, count, mean, mean without invalid values, quantile. *)
Definition per_group : list Z := [100; 101; 102; 103; 104; 105; 106].
Definition rolling : list Z := [200; 201; 202; 203; 204; 205; 206; 207].
Definition is_number (d : Z) : bool := (0 <? d) && (d <=? 13).
Definition supported (func d : Z) : bool :=
  match func with
  | 103 | 104 | 105 | 106 | 200 | 201 => (d =? 0) || is_number d
  | 100 | 101 | 102 | 203 => (d =? 0) || is_number d || is_text d
  | 202 | 205 | 206 | 207 => is_number d
  | 204 => existsb (Z.eqb d) [1; 3; 5; 7; 9]
  | _ => false
  end.
(** The type of the result. *)
Definition pack_dtype (func d : Z) : Z :=
  match func with
  | 105 => if (d =? 0) || (d =? 11) then 11 else 12
  | 106 => if (d =? 0) || (d =? 11) || (d =? 13) then d else 12
  | 204 => 5
  | 205 | 206 | 207 => 12
  | 200 | 201 => if floating d then d else 7
  | _ => d
  end.
Definition type_of (d : Z) : xtype :=
  if d =? 0 then XBool else if is_text d then XText else match stored d with Some c => XNum c | None => XText end.
(** The sums of bool are those of int8. *)
Definition in_type (func d : Z) : xtype := if ((func =? 200) || (func =? 201)) && (d =? 0) then XNum (CI 1) else type_of d.
Definition out_type (func d : Z) : xtype := type_of (pack_dtype func d).

Section Spec.
  Context {F : Type} (A : arith F).
  (** half the sum of two values: toward zero in the type of the column, or as a float64; of two bools one that is true *)
  Definition midpoint (T : xtype) (x y : num F) : num F :=
    match T with
    | XBool => I (Z.lor (zval x) (zval y))
    | XNum (CF b) => R (fdivn A (CF b) (fadd A (CF b) (fval A x) (fval A y)) 2)
    | _ => I (Z.quot (zval x + zval y) 2)
    end.
  Definition midpoint64 (T : xtype) (x y : num F) : num F :=
    match T with
    | XBool => I (Z.lor (zval x) (zval y))
    | XNum (CF b) => R (fdivn A (CF b) (fadd A (CF b) (fval A x) (fval A y)) 2)
    | _ => R (fdivn A (CF 8) (of_int A (CF 8) (zval x + zval y)) 2)
    end.

  Context (m : xmachine F).
  (** A sum as a float64, and the sum divided by the number of values as a float64, converted to the type of the column and then to that of the result. *)
  Definition plus64 (s : F) (x : num F) : F := fadd A (CF 8) s (fval A (conv A (CF 8) x)).
  Definition mean_in (T U : xtype) (s : F) (n : Z) : num F :=
    let q := fdivn A (CF 8) s n in
    x_conv A U match T with
               | XBool => I (if fltb A q (fzero A (CF 8)) || fltb A (fzero A (CF 8)) q || isnan A q then 1 else 0)
               | XNum (CF b) => R (cast A (CF b) q)
               | XNum c => I (wrapT c (x_trunc m q))
               | XText => I 0
               end.
  (** The result of a group in terms of its values. *)
  Definition pack_spec (func d param : Z) (vals : list (num F)) (r : num F) : Prop :=
    let T := in_type func d in let U := out_type func d in
    match func with
    | 100 => first_spec (x_inv A U) (x_conv A U) vals r
    | 101 => nth_spec (x_inv A U) (x_conv A U) param vals r
    | 102 => last_spec (x_inv A U) (x_conv A U) vals r
    | 103 => median_spec (x_inv A U) (x_conv A U) (x_lt A T) (x_num A T) (midpoint T) vals r
    | 104 => mode_spec (x_inv A U) (x_conv A U) (x_lt A T) (x_eq A T) (x_num A T) vals r
    | 105 => trimmean_spec (x_inv A U) (x_lt A T) (x_le A T) (x_ok A T) (x_ntrim m) (fzero A (CF 8)) plus64 (mean_in T U) vals r
    | 106 => quantile_spec (x_inv A U) (x_conv A U) (x_lt A T) (x_ok A T) (midpoint64 T) (10 ^ 9 <? param)
               (q_down (if 10 ^ 9 <? param then param - 10 ^ 9 - 1 else param)) (q_up (if 10 ^ 9 <? param then param - 10 ^ 9 - 1 else param)) vals r
    | _ => False
    end.
  (** The result of row [k] of a group in terms of the values of the group. *)
  Definition roll_spec (func d param : Z) (vals : list (num F)) (k : nat) (r : num F) : Prop :=
    let T := in_type func d in let U := out_type func d in
    match func with
    | 200 => rsum_spec (x_conv A U) (x_zero A U) (x_add A U) param vals k r
    | 201 => rnansum_spec (x_conv A U) (x_zero A U) (x_add A U) (x_ok A T) param vals k r
    | 202 => rdiff_spec (x_inv A U) (x_conv A U) (x_sub A U) param vals k r
    | 203 => rshift_spec (x_inv A U) (x_conv A U) param vals k r
    | 204 => rcount_spec (fun z => I (wrapT (CI 4) z)) param vals k r
    | 205 => rmean_spec (x_conv A U) (x_zero A U) (x_add A U) (x_div A U) param vals k r
    | 206 => rnanmean_spec (x_inv A U) (x_conv A U) (x_zero A U) (x_add A U) (x_div A U) (x_ok A T) param vals k r
    | 207 => quantile_row (x_lt A T) (x_ok A T) (x_inv A U) (x_conv A U) (fun a b => x_conv A U (midpoint64 T a b))
               (IntegralIndex (param mod (MULT + 1))) (IndexIsIntegral (param mod (MULT + 1))) (param / (MULT + 1)) vals k r
    | _ => False
    end.

  (** Row [k] of group [g] holds [P (values of the group) k]; the rows of group 0 are invalid. *)
  Definition rowwise (P : list (num F) -> nat -> num F -> Prop) (inv : num F) (low high : Z) (keys : list Z) (src res : list (num F)) : Prop :=
    forall g k r, nth_error (rows_with keys g) k = Some r ->
      (low <= g < high -> g <> 0 -> exists u, nth_error res (Z.to_nat r) = Some u /\ P (group_vals (combine keys src) g) k u) /\
      (low = 0 -> g = 0 -> nth_error res (Z.to_nat r) = Some inv).

  (** ** The arguments *)
  (** An array of int32 or int64 without gaps, inside of its memory. *)
  Definition index_ok (d : Z) (k : keyarg) : Prop :=
    k_dtype k = d /\ 0 <= k_len k /\ 0 <= k_start k /\ k_start k + k_len k <= Z.of_nat (length (k_mem k)) /\ (k_step k = 1 \/ k_len k <= 1).
  Record packed := mkPack { p_group : keyarg; p_first : keyarg; p_count : keyarg }.
  (** They are the packed form of [keys]. *)
  Definition packed_ok (d unique : Z) (keys : list Z) (p : packed) : Prop :=
    index_ok d (p_group p) /\ index_ok d (p_first p) /\ index_ok d (p_count p) /\ In d [5; 7; 9] /\
    layout (unique + 1) keys keys (key_vals (p_count p)) (key_vals (p_group p)) (key_vals (p_first p)).
  Definition bits (d : Z) : Z := if d =? 5 then 32 else 64.
  Definition Pack32 (qs : list (query (F := F))) (rows : Z) (p : packed) (unique param : Z) : outcome (list (Z * list (num F))) :=
    PyGroupByAllPack32 A m (map (fun q => OArray (q_col q)) qs) rows (p_group p) (p_first p) (p_count p) unique (map q_func qs) (map q_low qs) (map q_high qs) param.

  (** No rounding: the values are [e z] for whole numbers [z], and the sums of fewer than [n] of them are exact. *)
  Definition exact_sums (conv : num F -> num F) (zero : num F) (add sub : num F -> num F -> num F) (n : nat) (vals : list (num F)) : Prop :=
    exists (e : Z -> num F) (zc : num F -> Z) (M B : Z), zero = e 0 /\ Z.of_nat n * M <= B /\ 0 <= M /\
      (forall v, In v vals -> conv v = e (zc v) /\ Z.abs (zc v) <= M) /\
      (forall a b, Z.abs a <= B -> Z.abs b <= B -> add (e a) (e b) = e (a + b)) /\
      (forall a b, Z.abs a <= B -> Z.abs b <= B -> sub (e a) (e b) = e (a - b)).
  (** the sum of two values is in the range of the type *)
  Definition sums_fit (T : xtype) (vals : list (num F)) : Prop :=
    forall a b, In a vals -> In b vals ->
      match T with
      | XNum (CI n) => n <= 2 \/ - 2 ^ (8 * n - 1) <= zval a + zval b < 2 ^ (8 * n - 1)
      | XNum (CU n) => 0 <= zval a + zval b /\ (n <= 2 \/ zval a + zval b < 2 ^ (8 * n))
      | _ => True
      end.
  Definition values_ok (func d : Z) (vals : list (num F)) : Prop :=
    let T := in_type func d in let U := out_type func d in
    match func with
    | 103 => sums_fit T vals
    | 106 | 207 => sums_fit T (filter (x_ok A T) vals)
    | 105 => exact_sums (x_conv A (XNum (CF 8))) (R (fzero A (CF 8))) (x_add A (XNum (CF 8))) (x_sub A (XNum (CF 8))) (S (length vals)) (filter (x_ok A T) vals)
    | 200 => floating d = true -> exact_sums (x_conv A U) (x_zero A U) (x_add A U) (x_sub A U) (S (length vals)) vals
    | 201 => floating d = true -> exact_sums (x_conv A U) (x_zero A U) (x_add A U) (x_sub A U) (S (length vals)) (filter (x_ok A T) vals)
    | 205 => exact_sums (x_conv A U) (x_zero A U) (x_add A U) (x_sub A U) (S (length vals)) vals
    | 206 => exact_sums (x_conv A U) (x_zero A U) (x_add A U) (x_sub A U) (S (length vals)) (filter (x_ok A T) vals)
    | _ => True
    end.
  (** The parameter: of a quantile a number from 0 to 10^9, or 10^9 + 1 more to skip invalid values; a window; a quantile and a window. *)
  Definition param_ok (rows w func param : Z) : Prop :=
    match func with
    | 106 => 0 <= param <= 2 * 10 ^ 9 + 1 /\ rows <= 2 ^ 53
    | 200 | 201 | 205 | 206 => 0 <= param /\ rows + param < 2 ^ (w - 1)
    | 202 | 203 => rows + Z.abs param < 2 ^ (w - 1)
    | 207 => MULT + 1 <= param
    | _ => True
    end.
  Definition pack_ok (rows unique w param : Z) (q : query (F := F)) : Prop :=
    shaped rows (q_col q) /\ supported (q_func q) (c_dtype (q_col q)) = true /\ (c_dtype (q_col q) = 20 -> q_func q < 200 -> c_item (q_col q) <= 1) /\
    0 <= q_low q <= q_high q /\ q_high q <= unique + 1 /\
    values_ok (q_func q) (c_dtype (q_col q)) (c_vals (q_col q)) /\ param_ok rows w (q_func q) param.

  Definition pack_answers (rows unique param : Z) (keys : list Z) (q : query (F := F)) (r : Z * list (num F)) : Prop :=
    let d := c_dtype (q_col q) in
    fst r = pack_dtype (q_func q) d /\
    if q_func q <? 200
    then Z.of_nat (length (snd r)) = unique + 1 /\ reduced (pack_spec (q_func q) d param) (q_low q) (q_high q) (combine keys (c_vals (q_col q))) (snd r)
    else Z.of_nat (length (snd r)) = rows /\
         rowwise (roll_spec (q_func q) d param) (x_inv A (out_type (q_func q) d)) (q_low q) (q_high q) keys (c_vals (q_col q)) (snd r).

  (** ** The machine *)
  Definition xmachine_ok : Prop :=
    fair (x_ord m) /\ (forall T, nth_elements (x_lt A T) (x_ok A T) (x_nth m (x_lt A T))) /\ (forall n, (0 < n)%nat -> (0 < x_ntrim m n)%nat) /\
    (forall w i, length (x_left m w i) = Z.to_nat w).
  (** the order of floating point numbers; NaN is not in it *)
  Definition order_is_ok : Prop :=
    order_ok (fun x => negb (isnan A x)) (fltb A) /\ (forall a b, fltb A a b = true -> isnan A a = false /\ isnan A b = false).
End Spec.

(** ** What the results are for integers, in terms of whole numbers *)
Definition middle (zs : list Z) (z : Z) : Prop :=
  exists s, Permutation zs s /\ StronglySorted Z.le s /\
    if Nat.odd (length zs) then nth_error s (length zs / 2) = Some z
    else exists a b, nth_error s (length zs / 2 - 1) = Some a /\ nth_error s (length zs / 2) = Some b /\ z = Z.quot (a + b) 2.
(** the smallest of the most frequent ones *)
Definition most_frequent (zs : list Z) (z : Z) : Prop :=
  In z zs /\ forall y, In y zs -> (count_occ Z.eq_dec zs y <= count_occ Z.eq_dec zs z)%nat /\ (count_occ Z.eq_dec zs y = count_occ Z.eq_dec zs z -> z <= y).
Definition pack_integer (func missing param : Z) (zs : list Z) (z : Z) : Prop :=
  match func with
  | 100 => z = hd missing zs
  | 101 => z = (let i := if 0 <=? param then param else Z.of_nat (length zs) + param in if 0 <=? i then nth (Z.to_nat i) zs missing else missing)
  | 102 => z = last zs missing
  | 103 => if (length zs =? 0)%nat then z = missing else middle zs z
  | 104 => if (length zs =? 0)%nat then z = missing else most_frequent zs z
  | _ => False
  end.
Definition roll_integer (func lo hi missing param : Z) (zs : list Z) (k : nat) (z : Z) : Prop :=
  let here := firstn (S k) zs in let w := skipn (length here - Z.to_nat param) here in
  let before := let i := Z.of_nat k - param in if 0 <=? i then nth_error zs (Z.to_nat i) else None in
  match func with
  | 200 => sum64 7 w z
  | 201 => sum64 7 (filter (fun y => negb (y =? missing)) w) z
  | 202 => match before with None => z = missing | Some y => lo <= z <= hi /\ (hi - lo + 1 | z - (nth k zs 0 - y)) end
  | 203 => z = match before with None => missing | Some y => y end
  | 204 => z = if param <? 0 then Z.of_nat (length zs) - 1 - Z.of_nat k else Z.of_nat k
  | _ => False
  end.

(** ** For examples: a machine without threads and one with four, for the whole numbers; the largest and the smallest value are trimmed *)
Definition x_machine (threads : bool) : xmachine (option Z) :=
  mkXM threads 4 (fun _ l => l) (fun lt l _ => isort lt l) (fun _ => 1%nat) (fun x => match x with Some z => z | None => 0 end) (I 0) (fun w _ => repeat None (Z.to_nat w)) dirt.
Definition an_index (d : Z) (l : list Z) : keyarg := mkKey d 1 l 0 1 (Z.of_nat (length l)).
Definition ex_pack : packed := mkPack (an_index 5 ex_igroup) (an_index 5 ex_ifirst) (an_index 5 ex_ncount).
Definition texts (item : Z) (l : list Z) : column (option Z) := mkCol 18 1 (map I l) item item.
