(** src/Array.cpp: making arrays of lists. No proofs in this file.

    What numpy does is a parameter. New memory holds any bytes ([junk]). Allocations succeed. *)
From Verif Require Import Base.
Local Open Scope Z_scope.

(** an item of a list: the address of its type and its value; a float is its bits, a string its characters *)
Inductive pval := VBool (b : bool) | VInt (z : Z) | VFloat (f : Z) | VBytes (s : list Z) | VStr (s : list Z) | VOther.
Record pitem := PI { ty : Z; pv : pval }.
(** a new array: integers of [w] bytes; strings with the size of an item in bytes and all characters *)
Inductive arr := AInt (w : Z) (l : list Z) | ABool (l : list bool) | AFloat (l : list Z) | ABytes (item : Z) (d : list Z) | AStr (item : Z) (d : list Z).
(** what numpy makes: number of the type, size of an item, dimensions and bytes *)
Record npa := NPA { q_dtype : Z; q_item : Z; q_dims : list Z; q_data : list Z }.
(** [Same]: the array that was given; [SysError]: a result although an exception is set *)
Inductive result := Made (a : arr) | Numpy (a : npa) | Same | Raises | SysErr | UB.

(* Py_SIZE of bytes and strings *)
Definition psize (v : pval) : nat := match v with VBytes s | VStr s => length s | _ => O end.
(* Array.cpp:12-23 *)
Definition FindMaxSize (l : list pval) : nat := fold_left (fun m v => if (m <? psize v)%nat then psize v else m) l O.
(** write [xs] from [pos] on; None: outside of the memory *)
Definition write (m : list Z) (pos : nat) (xs : list Z) : option (list Z) :=
  if (pos + length xs <=? length m)%nat then Some (firstn pos m ++ xs ++ skipn (pos + length xs) m) else None.
Definition obind {A B} (o : option A) (f : A -> option B) : option B := match o with Some a => f a | None => None end.

(* Array.cpp:42-57 ConvertFloat64 *)
Definition ConvertFloat64 (l : list pval) : arr := AFloat (map (fun v => match v with VFloat f => f | _ => 0 end) l).
(* PyLong_AsLongLongAndOverflow: -1 if the number is too large or too small *)
Definition as_longlong (v : pval) : Z * bool := match v with VInt z => if (z <? - 2 ^ 63) || (2 ^ 63 - 1 <? z) then (-1, true) else (z, false) | VBool b => (if b then 1 else 0, false) | _ => (0, false) end.
(* Array.cpp:62-81 *)
Fixpoint int32s (l : list pval) : option (list Z) :=
  match l with
  | [] => Some []
  | v :: r => let '(x, o) := as_longlong v in if o || (x <? - 2 ^ 31) || (2 ^ 31 - 1 <? x) then None else obind (int32s r) (fun t => Some (x :: t))
  end.
Definition ConvertInt32 (l : list pval) : option arr := obind (int32s l) (fun t => Some (AInt 4 t)).
(* Array.cpp:85-98 *)
Definition ConvertInt64 (l : list pval) : arr := AInt 8 (map (fun v => fst (as_longlong v)) l).
(* Array.cpp:102-114 *)
Definition ConvertBool (l : list pval) : arr := ABool (map (fun v => match v with VBool b => b | _ => false end) l).

(* Array.cpp:125-143 *)
Fixpoint put_bytes (max : nat) (m : list Z) (i : nat) (l : list pval) : option (list Z) :=
  match l with
  | [] => Some m
  | v :: r =>
      let s := match v with VBytes s => s | _ => [] end in
      obind (obind (write m (i * max) s) (fun m1 => write m1 (i * max + length s) (repeat 0 (max - length s)))) (fun m2 => put_bytes max m2 (S i) r)
  end.
(* Array.cpp:118-145 ConvertBytes; RipTide.cpp:664-690: strings without characters get 1 byte, and the first byte of the array is 0 *)
Definition ConvertBytes (junk : nat -> Z) (l : list pval) : option arr :=
  let n := length l in
  let max := FindMaxSize l in
  let item := if (max =? 0)%nat then 1%nat else max in
  let m := map junk (seq 0 (n * item)) in
  obind (if (max =? 0)%nat then write m 0 [0] else Some m) (fun m1 =>
  obind (put_bytes max m1 0 l) (fun m2 => Some (ABytes (Z.of_nat item) m2))).
(* Array.cpp:156-170: PyUnicode_AsUCS4 fails, with an exception and no characters, if the string is longer than [max], which it never is *)
Fixpoint put_strs (max : nat) (m : list Z) (i : nat) (l : list pval) : option (list Z) :=
  match l with
  | [] => Some m
  | v :: r =>
      let s := match v with VStr s => s | _ => [] end in
      obind (if (length s <=? max)%nat then write m (i * max) s else Some m) (fun m1 =>
      obind (if (length s <? max)%nat then write m1 (i * max + length s) [0] else Some m1) (fun m2 => put_strs max m2 (S i) r))
  end.
(* Array.cpp:149-172 ConvertUnicode. Strings without characters get 1 byte, which holds no character. *)
Definition ConvertUnicode (junk : nat -> Z) (l : list pval) : option arr :=
  let max := FindMaxSize l in
  obind (put_strs max (map junk (seq 0 (length l * max))) 0 l) (fun m => Some (AStr (if (max =? 0)%nat then 1 else 4 * Z.of_nat max) m)).

(* Array.cpp:181-224 ProcessAsArrayKwargs: whether a copy or an order is asked for, and whether an exception is set.
   [copy]: not given, a bool, something else; [order]: not given, a string, something else *)
Inductive kw := Absent | Good (b : bool) | Wrong.
Definition ProcessAsArrayKwargs (copy order : kw) : bool * bool :=
  (match copy with Good true => true | _ => false end || match order with Good _ => true | _ => false end,
   match copy with Wrong => true | _ => false end || match order with Wrong => true | _ => false end).
Definition settled (pending : bool) (r : result) : result :=
  if pending then match r with Raises => Raises | UB => UB | _ => SysErr end else r.

(** what is given: a list, a numpy array, or anything else; [dtype]: whether one can be made of what was given *)
Inductive pobj := PList (l : list pitem) | PArray | PElse.
(* Array.cpp:302-349: an array of a list, None: left to numpy *)
Definition of_list (long4 : bool) (junk : nat -> Z) (l : list pitem) : option result :=
  match l with
  | [] => Some (Made (AFloat []))
  | x :: r =>
      if negb (forallb (fun y => ty y =? ty x) r) then None
      else
        let vs := map pv l in
        let made o := Some (match o with Some a => Made a | None => UB end) in
        match pv x with
        | VBool _ => Some (Made (ConvertBool vs))
        | VInt _ => match (if long4 then ConvertInt32 vs else None) with Some a => Some (Made a) | None => Some (Made (ConvertInt64 vs)) end
        | VFloat _ => Some (Made (ConvertFloat64 vs))
        | VBytes _ => made (ConvertBytes junk vs)
        | VStr _ => made (ConvertUnicode junk vs)
        | VOther => None
        end
  end.
(* Array.cpp:364-393: PyArray_FromAny, and an array of one item for one without dimensions. The item is copied without counting a reference. *)
Definition from_any (r : option npa) : result :=
  match r with
  | None => Raises
  | Some a => match q_dims a with
              | [] => if q_dtype a =? 17 then UB else Numpy (NPA (q_dtype a) (q_item a) [1] (q_data a))
              | _ => Numpy a
              end
  end.
(* Array.cpp:238-394 AsAnyArray. [nargs]: arguments without names; [arg2], [dt]: the second one and dtype=, whether they are types.
   [long4]: long has 4 bytes. *)
Definition AsAnyArray (long4 : bool) (junk : nat -> Z) (numpy : option npa) (nargs : nat) (arg2 : bool) (dt copy order : kw) (o : pobj) : result :=
  if negb ((nargs =? 1)%nat || (nargs =? 2)%nat) then Raises
  else if (nargs =? 2)%nat && negb arg2 then Raises
  else match dt with
       | Wrong => Raises
       | Good _ => if (nargs =? 2)%nat then Raises else let '(_, pending) := ProcessAsArrayKwargs copy order in settled pending (from_any numpy)
       | Absent =>
           let '(asked, pending) := ProcessAsArrayKwargs copy order in
           settled pending
             (if (nargs =? 2)%nat then from_any numpy
              else match o with
                   | PArray => if asked then from_any numpy else Same
                   | PList l => match of_list long4 junk l with Some r => r | None => from_any numpy end
                   | PElse => from_any numpy
                   end)
       end.
(* Array.cpp:409-415 AsFastArray, RipTide.cpp:437-464: SetFastArrayView reads the type of the array *)
Definition AsFastArray (fast : bool) (long4 : bool) (junk : nat -> Z) (numpy : option npa) (nargs : nat) (arg2 : bool) (dt copy order : kw) (o : pobj) : result :=
  match AsAnyArray long4 junk numpy nargs arg2 dt copy order o with
  | Raises => if fast then UB else Raises
  | r => r
  end.
