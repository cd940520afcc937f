(** IsMember by concurrent hash maps, src/is_member_tg.h, used when the environment variable RT_NEW_HASH is 1
    (RipTide.cpp:2078-2090). No proofs in this file.

    std::unordered_map is modelled as a list of pairs where [insert] keeps the pair that is there and [find] takes the
    pair with an equal key; std::vector as its items and, after clear(), the first item left in its memory. Nodes of
    the flow graph that handle one message at a time (the storers) take their messages in any order that keeps the
    order of each sender (the calls of the splitter). *)
From Verif Require Import Base Mem HashModel.
Local Open Scope Z_scope.

(* is_member_tg.h:42 grainsize_v and 187 num_per_bucket_v *)
Definition grainsize : Z := 1000000.
Definition num_per_bucket : nat := 1024.

(* is_member_tg.h:44-53 simple_span_from_fixed_cstring: characters from position [i] until a 0 or [n] characters *)
Fixpoint cstring (mem : list Z) (i : Z) (n : nat) : option (list Z) :=
  match n with
  | O => Some []
  | S n' => match zrd mem i with
            | None => None
            | Some c => if c =? 0 then Some [] else option_map (cons c) (cstring mem (i + 1) n')
            end
  end.

Section Ranges.
  (** bits of index_t, grainsize_v, the number of items and their length as seen by the ranges *)
  Context (w G n L : Z).
  (* is_member_tg.h:66-73 rangify_func *)
  Definition rangify (start : Z) : Z * Z :=
    let range_size := (G / L) * L in
    (start, if n <=? start + range_size then wrap w (n * L) else wrap w (start + range_size)).
  (* is_member_tg.h:236-248 data_rangifier: the ranges until it stops; [None] if it does not within [fuel] ranges *)
  Fixpoint ranges (fuel : nat) (start : Z) : option (list (Z * Z)) :=
    match fuel with
    | O => None
    | S f =>
        let '(s, e) := rangify start in
        let next := if e - G + 1 <? s then 0 else e in
        if next =? 0 then Some [(s, e)] else option_map (cons (s, e)) (ranges f next)
    end.
  (* is_member_tg.h:271: the values of i, which is an index_t and counts up until it equals the end *)
  Definition positions (s e : Z) : list Z := map (fun k => wrap w (s + Z.of_nat k)) (seq 0 (Z.to_nat ((e - s) mod 2 ^ w))).
End Ranges.

Section Graph.
  Context {K : Type}.
  (** index and value of hash_details, is_member_tg.h:99-121 *)
  Local Notation details := (Z * K)%type.
  Record bucket := { items : list details; left : option details }.
  Definition no_items : bucket := {| items := []; left := None |}.
  (** the first item in the memory of a vector *)
  Definition front (v : bucket) : option details := match items v with x :: _ => Some x | [] => left v end.

  (** [load i]: what the splitter does at position [i]: [None] a read outside the array, [Some None] nothing *)
  Context (load : Z -> option (option details)) (bucket_of : K -> option nat).

  (* is_member_tg.h:273-295: one position. The messages sent so far are in reverse order. *)
  Definition split_step (B : nat) (st : list bucket * list (nat * list details)) (i : Z) : option (list bucket * list (nat * list details)) :=
    match load i with
    | None => None
    | Some None => Some st
    | Some (Some d) =>
        match bucket_of (snd d) with
        | None => None
        | Some b =>
            match nth_error (fst st) b with
            | None => None
            | Some v =>
                let v' := {| items := items v ++ [d]; left := left v |} in
                if Nat.eqb (length (items v')) B
                then Some (upd (fst st) b {| items := []; left := front v' |}, (b, items v') :: snd st)
                else Some (upd (fst st) b v', snd st)
            end
        end
    end.
  Fixpoint split_loop (B : nat) (is : list Z) (st : list bucket * list (nat * list details)) : option (list bucket * list (nat * list details)) :=
    match is with [] => Some st | i :: r => match split_step B st i with Some st' => split_loop B r st' | None => None end end.
  (* is_member_tg.h:298-304: what is left in the buckets. bucket[0] of a vector that never had an item is undefined. *)
  Fixpoint split_rest (b : nat) (bs : list bucket) : option (list (nat * list details)) :=
    match bs with
    | [] => Some []
    | v :: r => match front v with
                | None => None
                | Some d => option_map (fun l => if fst d =? -1 then l else (b, items v) :: l) (split_rest (S b) r)
                end
    end.
  (* is_member_tg.h:262-307 splitter_func: the messages to the storers, in order *)
  Definition splitter (w : Z) (B nb : nat) (range : Z * Z) : option (list (nat * list details)) :=
    if (fst range =? 0) && (snd range =? 0) then Some []
    else match split_loop B (positions w (fst range) (snd range)) (repeat no_items nb, []) with
         | None => None
         | Some (bs, sent) => option_map (fun l => rev sent ++ l) (split_rest 0 bs)
         end.

  Context (keq : K -> K -> bool).
  (* is_member_tg.h:250-260 storing_func: std::unordered_map::insert of an index_t *)
  Definition insert (w : Z) (t : list (K * Z)) (d : details) : list (K * Z) :=
    if fst d =? -1 then t else if existsb (fun p => keq (fst p) (snd d)) t then t else t ++ [(snd d, wrap w (fst d))].
  (* is_member_tg.h:327-335 find *)
  Definition lookup (w : Z) (t : list (K * Z)) (k : K) : Z :=
    match find (fun p => keq (fst p) k) t with
    | Some (_, v) => if v =? - 2 ^ (w - 1) then - 2 ^ (w - 1) else v
    | None => - 2 ^ (w - 1)
    end.
  (** the messages of one call of the splitter to storer [b] *)
  Definition sent_to (b : nat) (msgs : list (nat * list details)) : list (list details) :=
    map snd (filter (fun m => Nat.eqb (fst m) b) msgs).
  (** [mix b]: the order in which storer [b] takes the messages of the calls of the splitter *)
  Definition table (w : Z) (mix : nat -> list (list (list details)) -> list (list details)) (calls : list (list (nat * list details))) (b : nat) : list (K * Z) :=
    fold_left (insert w) (concat (mix b (map (sent_to b) calls))) [].
End Graph.

Fixpoint all_some {A} (l : list (option A)) : option (list A) :=
  match l with [] => Some [] | x :: r => match x, all_some r with Some a, Some t => Some (a :: t) | _, _ => None end end.

(** the number of buckets: is_member_tg.h:449 and 223 *)
Definition num_slices (G size : Z) : nat := Z.to_nat ((size + G - 1) / G).

Section Member.
  Context {K : Type} (keq : K -> K -> bool) (bucket_of : nat -> K -> option nat).
  (* is_member_tg.h:433-473 is_member_tg for index_t of [w] bits: [size] items of length [L] in the haystack, read by [load];
     the needles and their buckets (357-386, 407-428). The outputs are one list of pairs here. *)
  Definition is_member_tg (w G : Z) (B : nat) (mix : nat -> list (list (list (Z * K))) -> list (list (Z * K))) (ord : sched)
      (size L : Z) (load : Z -> option (option (Z * K))) (needles : list (option (K * option nat))) (out0 : list (bool * Z)) : out (list (bool * Z)) :=
    let nb := num_slices G size in
    match ranges w G (wrap w size) L (S (S (Z.to_nat (size * L)))) 0 with
    | None => UB
    | Some rs =>
        match all_some (map (splitter load (bucket_of nb) w B nb) rs), all_some needles with
        | Some calls, Some ns =>
            match all_some (map (fun kb => match snd kb with
                                           | Some b => if (b <? nb)%nat then
                                               let at_ := lookup keq w (table keq w mix calls b) (fst kb) in
                                               Some (if 0 <=? at_ then (true, at_) else (false, - 2 ^ (w - 1)))
                                             else None
                                           | None => None end) ns) with
            | Some rows => lift (writes (ord _ (enum 1 0 rows)) out0)
            | None => UB
            end
        | _, _ => UB
        end
    end.
End Member.

(* numpy_traits.h:418-441 index_size_type: the bits of the index *)
Definition index_bits (size : Z) : Z := if size <? 100 then 8 else if size <? 30000 then 16 else if size <? 2000000000 then 32 else 64.

(** the bucket of a number that converts to the size_t [v], is_member_tg.h:75-86; a remainder by 0 is undefined *)
Definition mod_bucket (nb : nat) (v : option Z) : option nat :=
  match nb with O => None | S O => Some O | _ => option_map (fun v => Z.to_nat (u64 v mod Z.of_nat nb)) v end.
(** the bucket of a string with hash [h]: the hash itself, is_member_tg.h:78-81 *)
Definition hash_bucket (nb : nat) (h : Z) : option nat := match nb with S O => Some O | _ => Some (Z.to_nat (u64 h)) end.

Section Api.
  Context (G : Z) (B : nat) (ord : sched).
  (* HashLinear.cpp:5787-5840 for integers of the values [a] and [b], and is_member_tg.h:285-290, 377-384 *)
  Definition member_num {K} (keq : K -> K -> bool) (size_t : K -> option Z) mix (a b : list K) : out (list (bool * Z)) :=
    let size := Z.of_nat (length b) in
    let nb := num_slices G size in
    is_member_tg keq (fun nb k => mod_bucket nb (size_t k)) (index_bits size) G B mix ord size 1
      (fun i => option_map (fun k => Some (i, k)) (zrd b i)) (map (fun k => Some (k, mod_bucket nb (size_t k))) a) (repeat (false, 0) (length a)).
  Definition IsMember_ints mix (a b : list Z) := member_num Z.eqb (fun x => Some x) mix a b.
  (** floats of [w] bits with [e] exponent bits as bit patterns; [size_t]: their conversion to size_t, if it is defined *)
  Definition IsMember_floats (w e : Z) (size_t : Z -> option Z) mix (a b : list Z) := member_num (feq_bits w e) size_t mix a b.

  (** strings of [n1] and [n2] items of [L1] and [L2] characters; is_member_tg.h:274-284 and 366-376. [hash]: std::hash of the text *)
  Definition list_eqb (s t : list Z) : bool := if list_eq_dec Z.eq_dec s t then true else false.
  Definition member_str (hash : list Z -> Z) mix (n1 n2 L1 L2 : Z) (a b : list Z) : out (list (bool * Z)) :=
    let w := index_bits n2 in
    let nb := num_slices G n2 in
    is_member_tg list_eqb (fun nb k => hash_bucket nb (hash k)) w G B mix ord n2 L2
      (fun i => if u64 i mod L2 =? 0 then (if wrap w L2 =? 0 then None else option_map (fun t => Some (Z.quot i (wrap w L2), t)) (cstring b i (Z.to_nat L2))) else Some None)
      (map (fun i => match all_some (map (fun j => zrd a (Z.of_nat i * L1 + Z.of_nat j)) (if Nat.eqb nb 1 then [] else seq 0 (Z.to_nat L1))) with
                     | Some whole => option_map (fun t => (t, hash_bucket nb (hash whole))) (cstring a (Z.of_nat i * L1) (Z.to_nat L1))
                     | None => None end) (seq 0 (Z.to_nat n1)))
      (repeat (false, 0) (Z.to_nat n1)).
  (** the item [i] of an array of strings *)
  Definition item (L : nat) (mem : list Z) (i : nat) : list Z := firstn L (skipn (i * L) mem).
  Definition item_list (n L : Z) (mem : list Z) : list (list Z) := map (item (Z.to_nat L) mem) (seq 0 (Z.to_nat n)).
  (** the integer with the bytes of an item of characters of [csz] bytes *)
  Definition le_int (csz : Z) (s : list Z) : Z := wrap (8 * csz * Z.of_nat (length s)) (fold_right (fun c v => c + 2 ^ (8 * csz) * v) 0 s).
  (* HashLinear.cpp:5607-5622 and 5778-5783: strings of the same size 1, 2, 4 or 8 bytes are taken for integers. The keys here are the bytes,
     which are equal if and only if the integers are. [csz] is the size of a character: 1, or 4 in unicode arrays.
     HashLinear.cpp:5800-5801: the length given to is_member_tg is the size in bytes, also for unicode. *)
  Definition IsMember_strings (csz : Z) (hash : list Z -> Z) mix (n1 n2 chars1 chars2 : Z) (a b : list Z) : out (list (bool * Z)) :=
    let L1 := csz * chars1 in let L2 := csz * chars2 in
    if (L1 =? L2) && ((L1 =? 1) || (L1 =? 2) || (L1 =? 4) || (L1 =? 8)) then
      member_num list_eqb (fun s => Some (le_int csz s)) mix (item_list n1 chars1 a) (item_list n2 chars2 b)
    else member_str hash mix n1 n2 L1 L2 a b.
End Api.
