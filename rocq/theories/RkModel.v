(** Model of MultiKeyRolling of /repo/src/MultiKey.cpp from its arguments to its results, with the hash objects that live from call to call.  The rows
    are those of MkModel, the hash table is that of HashModel.
    Simplified: the first argument is a tuple, the second an integer; integers that do not fit into 64 bits, and rows of another width than
    in the call before, count as undefined.  A call with an error that returns None counts as an error.  No proofs in this file. *)
From Verif Require Import Base Mem AllModel EaModel.
From Verif Require HashModel.
From Verif Require Import MkModel.
Local Open Scope Z_scope.

(* the first argument: a tuple of columns, or a tuple with a list of columns *)
Inductive roll_keys := KeysTuple (cols : list key_column) | KeysList (cols : list key_column).
(* MultiKey.cpp:374-400 with the first argument of MultiKeyRolling in the place of all arguments: the third column is the filter *)
Definition third_filter (cols : list key_column) : param bool :=
  match cols with
  | _ :: _ :: c :: _ =>
      match c with
      | KNone => PNone
      | KArray _ a => PArray (mkArg (a_dtype a) (map (fun item => negb (nth 0 item 0 =? 0)) (a_mem a)) (a_start a) (a_step a) (a_len a))
      | KOther => POther
      end
  | _ => PNone
  end.
(* MultiKey.cpp:345-465; None: no columns and no error *)
Definition prepare_keys (k : roll_keys) : outcome (option prepared) :=
  match k with
  | KeysTuple [] => Done None
  | KeysTuple cols => obind (prepare cols (third_filter cols)) (fun p => Done (Some p))
  | KeysList cols => obind (prepare cols PNone) (fun p => Done (Some p))
  end.

(* a hash object: the width of the rows, the size of the table and its entries, if it has one; the number of different rows.  HashLinear.cpp:1970-1984 *)
Definition slots : Type := list (option (list Z * Z * Z)).
Record roller := { o_table : option (Z * Z * slots); o_unique : Z }.
(* the hash objects and their addresses *)
Definition objects := list (Z * roller).
Fixpoint find (h : objects) (p : Z) : option roller :=
  match h with [] => None | (q, r) :: h' => if q =? p then Some r else find h' p end.
Fixpoint put (h : objects) (p : Z) (r : roller) : objects :=
  match h with [] => [] | (q, s) :: h' => if q =? p then (q, r) :: h' else (q, s) :: put h' p r end.
Fixpoint drop (h : objects) (p : Z) : objects :=
  match h with [] => [] | (q, s) :: h' => if q =? p then h' else (q, s) :: drop h' p end.

Section Rolling.
  (* the hash function; the address of a new object; what the new arrays held *)
  Context (crc_bytes : list Z -> Z) (address : objects -> Z) (junk : nat -> Z).

  (* HashLinear.cpp:3496-3504 *)
  Definition start (hint width n : Z) : roller :=
    if (width <=? 16) && (0 <=? hint)
    then let size := HashModel.AllocMemory HashModel.MASK false (HashModel.entries hint n) in
         {| o_table := Some (width, size, HashModel.new_table size); o_unique := 0 |}
    else {| o_table := None; o_unique := 0 |}.
  (* HashLinear.cpp:3483-3565: the object afterwards, the numbers of the groups and the running counts.  Nothing catches an exception *)
  Definition roll (r : roller) (width : Z) (rows : list (list Z)) : outcome (roller * list Z * list Z) :=
    let held := map junk (seq 0 (length rows)) in
    if 16 <? width then Done (r, held, held)
    else match o_table r with
    | None => Done (r, held, held)
    | Some (w, size, t) =>
        if negb (w =? width) then Undefined
        else match HashModel.MultiKeyRolling HashModel.bytes_eqb (HashModel.row_hash crc_bytes) size (t, o_unique r) rows with
             | HashModel.Ret (t', nu, os) => Done ({| o_table := Some (w, size, t'); o_unique := nu |}, map fst os, map snd os)
             | _ => Undefined
             end
    end.
  (* MultiKey.cpp:1420-1490 and HashLinear.cpp:5292-5332.  [last]: the third argument, None if it is not given or no integer.  The result: None, or the
     numbers of the groups, the running counts, the number of different rows so far and the address; and the objects afterwards *)
  Definition MultiKeyRollingCall (h : objects) (k : roll_keys) (hint : Z) (last : option Z) : outcome (option (list Z * list Z * Z * Z) * objects) :=
    let pointer := match last with Some p => p | None => 0 end in
    let delete := match last with Some _ => hint =? -1 | None => false end in
    if negb (int64_ok hint && int64_ok pointer) then Undefined
    else if delete
    then if pointer =? 0 then Done (None, h) else match find h pointer with Some _ => Done (None, drop h pointer) | None => Undefined end
    else obind (prepare_keys k) (fun q =>
      match q with
      | None => Done (None, h)
      | Some p =>
          if negb (p_object p) then Undefined
          else if pointer =? 0
          then obind (roll (start hint (p_width p) (Z.of_nat (length (p_rows p)))) (p_width p) (p_rows p)) (fun r =>
               let '(o, idx, count) := r in let a := address h in Done (Some (idx, count, o_unique o, a), (a, o) :: h))
          else match find h pointer with
               | None => Undefined
               | Some o => obind (roll o (p_width p) (p_rows p)) (fun r =>
                   let '(o, idx, count) := r in Done (Some (idx, count, o_unique o, pointer), put h pointer o))
               end
      end).
End Rolling.
