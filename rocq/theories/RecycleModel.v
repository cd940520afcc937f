(** src/Recycler.cpp: arrays kept for reuse. No proofs in this file.
    An array is a number; its reference count includes the reference the recycler holds. *)
From Verif Require Import Base.
Local Open Scope Z_scope.

Definition SEARCH : nat := 4. (* Recycler.h:21 RECYCLE_MAXIMUM_SEARCH *)
Definition TYPES : Z := 14. (* Recycler.h:20 RECYCLE_MAXIMUM_TYPE *)
Definition MIN_SIZE : Z := 1. (* Recycler.h:23 RECYCLE_MIN_SIZE *)
(* Recycler.h:8-17 stRecycleItem; a slot whose totalSize is 0 is [None] *)
Record ritem := { r_size : Z; r_arr : nat; r_mem : Z; r_tsc : Z }.
(* Recycler.h:25-33 stRecycleList; Head and Tail are 32-bit counters in the code *)
Record rlist := { head : Z; tail : Z; items : list (option ritem) }.
Record robj := { o_type : Z; o_size : Z; o_mem : Z; o_refs : Z }.
(** [objs]: the arrays made so far *)
Record rstate := { tab : Z -> Z -> rlist; objs : list robj }.
Definition rinit : rstate := {| tab := fun _ _ => {| head := 0; tail := 0; items := repeat None SEARCH |}; objs := [] |}.

Definition set_list (l t : Z) (L : rlist) (s : rstate) : rstate :=
  {| tab := fun l' t' => if (l' =? l) && (t' =? t) then L else tab s l' t'; objs := objs s |}.
Definition refs_of (s : rstate) (o : nat) : Z := match nth_error (objs s) o with Some b => o_refs b | None => 0 end.
(* Py_INCREF, Py_DECREF *)
Definition add_ref (o : nat) (d : Z) (s : rstate) : option rstate :=
  match nth_error (objs s) o with
  | Some b => if 0 <? o_refs b then
                Some {| tab := tab s; objs := upd (objs s) o {| o_type := o_type b; o_size := o_size b; o_mem := o_mem b; o_refs := o_refs b + d |} |}
              else None (* the array was freed *)
  | None => None
  end.

(* Recycler.cpp:332-346 RemoveFromList *)
Definition RemoveFromList (l t : Z) (k : nat) (s : rstate) : rstate :=
  let L := tab s l t in set_list l t {| head := head L; tail := tail L + 1; items := upd (items L) k None |} s.
(* Recycler.cpp:353-389 RefCountNumpyArray, decrement (375-388); None: the slot is empty *)
Definition release (l t : Z) (k : nat) (s : rstate) : option rstate :=
  match nth_error (items (tab s l t)) k with
  | Some (Some it) => add_ref (r_arr it) (-1) (RemoveFromList l t k s)
  | _ => None
  end.
(* Recycler.cpp:353-389 RefCountNumpyArray, increment (360-374), after the slot was filled (753-765) *)
Definition keep (l t : Z) (k : nat) (it : ritem) (s : rstate) : option rstate :=
  let L := tab s l t in
  add_ref (r_arr it) 1 (set_list l t {| head := head L + 1; tail := tail L; items := upd (items L) k (Some it) |} s).

(* lzcnt_64 *)
Definition lzcnt (n : Z) : Z := 63 - Z.log2 n.
(* the first slot that satisfies [f], from slot [k] on *)
Fixpoint slot_from (f : option ritem -> bool) (l : list (option ritem)) (k : nat) : option nat :=
  match l with [] => None | x :: l' => if f x then Some k else slot_from f l' (S k) end.
Definition first_slot (f : option ritem -> bool) (l : list (option ritem)) : option nat := slot_from f l 0.

(* Recycler.cpp:529-574 RecycleFindArray; None: outside of the table *)
Definition RecycleFindArray (ndim type size : Z) (s : rstate) : option (option nat * rstate) :=
  if (MIN_SIZE <=? size) && (type <? TYPES) && (ndim =? 1) then
    if type <? 0 then None
    else
      let l := lzcnt size in
      match first_slot (fun x => match x with Some it => (r_size it =? size) && (refs_of s (r_arr it) =? 1) | None => false end) (items (tab s l type)) with
      | Some k => match nth_error (items (tab s l type)) k with
                  | Some (Some it) => Some (Some (r_arr it), RemoveFromList l type k s)
                  | _ => None
                  end
      | None => Some (None, s)
      end
  else Some (None, s).

(* Recycler.cpp:458-479: one slot; [old] decides from the time stamp (463, 469) *)
Definition collect_slot (old : Z -> bool) (l t : Z) (k : nat) (s : rstate) : option rstate :=
  match nth_error (items (tab s l t)) k with
  | Some (Some it) => if old (r_tsc it) then release l t k s else Some s
  | _ => Some s
  end.
Fixpoint collect_slots (old : Z -> bool) (l t : Z) (ks : list nat) (s : rstate) : option rstate :=
  match ks with
  | [] => Some s
  | k :: ks' => match collect_slot old l t k s with Some s' => collect_slots old l t ks' s' | None => None end
  end.
(* 454: lists with Head = Tail are passed over *)
Definition collect_list (old : Z -> bool) (l t : Z) (s : rstate) : option rstate :=
  if head (tab s l t) =? tail (tab s l t) then Some s else collect_slots old l t (seq 0 SEARCH) s.
Fixpoint collect_lists (old : Z -> bool) (lts : list (Z * Z)) (s : rstate) : option rstate :=
  match lts with
  | [] => Some s
  | (l, t) :: r => match collect_list old l t s with Some s' => collect_lists old r s' | None => None end
  end.
Definition all_lists : list (Z * Z) :=
  flat_map (fun l => map (fun t => (Z.of_nat l, Z.of_nat t)) (seq 0 (Z.to_nat TYPES))) (seq 0 64).
(* Recycler.cpp:414-490 GarbageCollect, when it is time for one (423) *)
Definition GarbageCollect (old : Z -> bool) (s : rstate) : option rstate := collect_lists old all_lists s.

(* Recycler.cpp:599-803 FinalizeNumpyArray of an array of one dimension that passes the tests of its flags (617-642, 663-667), while
   recycling is on; [tsc]: the time stamp; [gc]: the garbage collection at the end, if it is time for one *)
Definition FinalizeNumpyArray (o : nat) (tsc : Z) (gc : option (Z -> bool)) (s : rstate) : option (bool * rstate) :=
  match nth_error (objs s) o with
  | None => None
  | Some b =>
      if negb (o_refs b =? 1) then Some (false, s)
      else
        let finish (r : bool) (s : rstate) := match gc with Some old => match GarbageCollect old s with Some s' => Some (r, s') | None => None end | None => Some (r, s) end in
        if (MIN_SIZE <=? o_size b) && (o_type b <? TYPES) then
          let l := lzcnt (o_size b) in let t := o_type b in
          let L := tab s l t in
          if existsb (fun x => match x with Some it => r_mem it =? o_mem b | None => false end) (items L) then finish false s
          else
            let it := {| r_size := o_size b; r_arr := o; r_mem := o_mem b; r_tsc := tsc |} in
            match first_slot (fun x => match x with None => true | _ => false end) (items L) with
            | Some k => match keep l t k it s with Some s' => finish true s' | None => None end
            | None =>
                let k := match first_slot (fun x => match x with Some it => negb (refs_of s (r_arr it) =? 1) | None => false end) (items L) with
                         | Some k => k
                         | None => Z.to_nat (Z.land (head L) 3)
                         end in
                match release l t k s with
                | Some s1 => match keep l t k it s1 with Some s2 => finish true s2 | None => None end
                | None => None
                end
            end
        else finish false s
  end.

(** ** Python *)

(** A new array; another reference to an array; a reference dropped; the recycler asked for an array; garbage collected.
    [own]: the number of references to each array that are not the recycler's. *)
Inductive rop := RNew (type size mem : Z) | RRef (o : nat) | RDrop (o : nat) (recycle : bool) (tsc : Z) (gc : option (Z -> bool)) | RFind (ndim type size : Z) | RCollect (old : Z -> bool).
Definition own_add (own : list Z) (o : nat) (d : Z) : list Z := upd own o (nth o own 0 + d).
(* RipTide.cpp:352-370 FastArrayFinalizer: when the last reference is dropped the array is finalized; [recycle]: the tests of 828-846 and of its flags pass *)
Definition rstep (op : rop) (s : rstate) (own : list Z) : option (rstate * list Z) :=
  match op with
  | RNew type size mem => Some ({| tab := tab s; objs := objs s ++ [{| o_type := type; o_size := size; o_mem := mem; o_refs := 1 |}] |}, own ++ [1])
  | RRef o => match add_ref o 1 s with Some s' => Some (s', own_add own o 1) | None => None end
  | RDrop o recycle tsc gc =>
      if (refs_of s o =? 1) && recycle then
        match FinalizeNumpyArray o tsc gc s with
        | Some (_, s1) => match add_ref o (-1) s1 with Some s' => Some (s', own_add own o (-1)) | None => None end
        | None => None
        end
      else match add_ref o (-1) s with Some s' => Some (s', own_add own o (-1)) | None => None end
  | RFind ndim type size => match RecycleFindArray ndim type size s with
                            | Some (Some o, s') => Some (s', own_add own o 1)
                            | Some (None, s') => Some (s', own)
                            | None => None
                            end
  | RCollect old => match GarbageCollect old s with Some s' => Some (s', own) | None => None end
  end.
