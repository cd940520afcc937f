(** What is expected of stacked files: definitions for the statements in StackProps.v. *)
From Coq Require Import SpecFloat.
From Verif Require Import Base ConvModel ConvSpec.
From Verif Require Export StackModel.
Local Open Scope Z_scope.

(* numbers and texts, with the item size that belongs to the type *)
Definition number_block (b : block) : Prop := exists t, of_num (fixed b) = Some t /\ b_item b = size t.
Definition text_block (b : block) : Prop :=
  (b_dtype b = SDS_STRING \/ (b_dtype b = SDS_UNICODE /\ b_item b mod 4 = 0)) /\ 0 < b_item b.
Record part_ok (p : part) : Prop := {
  po_type : number_block (fst p) \/ text_block (fst p);
  po_dims : b_dims (fst p) <> [] /\ Forall (fun d => 0 <= d) (b_dims (fst p));
  po_data : len (snd p) = product (b_dims (fst p)) * b_item (fst p);
  po_bytes : Forall (fun b => 0 <= b < 256) (snd p) }.
Record file_ok (f : sfile) : Prop := {
  fo_parts : Forall (fun c => part_ok (co_part c)) (s_cols f);
  fo_names : NoDup (map co_name (s_cols f)) }.

(* the array that a file has under a name *)
Definition part_of (n : name) (f : sfile) : option part := option_map co_part (find (fun c => name_eqb (co_name c) n) (s_cols f)).
(* how many rows of the column come from a file: those of its array, or as many as its dataset has *)
Definition rows_of (n : name) (f : sfile) : Z :=
  match part_of n f with Some (b, _) => if dim0 b =? 0 then dataset_length f else dim0 b | None => dataset_length f end.

(* cut into items of n bytes *)
Fixpoint cut (count : nat) (n : nat) (l : list Z) : list (list Z) :=
  match count with O => [] | S c => firstn n l :: cut c n (skipn n l) end.
Definition items (p : part) : list (list Z) := cut (Z.to_nat (product (b_dims (fst p)))) (Z.to_nat (b_item (fst p))) (snd p).

(* the number [t] of a type is what the type [u] has for it: the same bytes, or the converted number *)
Definition number_item (t u : dtype) (x y : list Z) : Prop :=
  if dtype_beq t u then y = x else exists v, ConvertItem t u (dec t x) = Some v /\ y = enc u v.
(* a text: filled up with zeros; characters of one byte become characters of four bytes *)
Definition text_item (d e : Z) (item : Z) (x y : list Z) : Prop :=
  let x' := if d =? e then x else concat (map (fun b => [b; 0; 0; 0]) x) in y = x' ++ repeat 0 (Z.to_nat item - length x').
Definition item_ok (k : block) (o : block) (x y : list Z) : Prop :=
  match of_num (fixed o), of_num (fixed k) with
  | Some t, Some u => number_item t u x y
  | _, _ => text_item (fixed o) (fixed k) (b_item k) x y
  end.
(* the item of a row without data *)
Definition blank (k : block) : list Z :=
  match of_num (fixed k) with Some t => enc t (GetDefaultForType t) | None => repeat 0 (Z.to_nat (b_item k)) end.

(* what a file contributes to the column: its items in the order of their bytes, or blank items *)
Definition contributes (n : name) (k : block) (f : sfile) (ys : list (list Z)) : Prop :=
  match part_of n f with
  | Some p => Forall2 (item_ok k (fst p)) (items p) ys
  | None => ys = repeat (blank k) (Z.to_nat (dataset_length f * product (tl (b_dims k))))
  end.

(* the room of a file: as many items as its rows have, each of the size of the column *)
Definition room_of (n : name) (k : block) (f : sfile) (ys : list (list Z)) : Prop :=
  Z.of_nat (length ys) = rows_of n f * product (tl (b_dims k)) /\ Forall (fun y => len y = b_item k) ys.
Definition sum (l : list Z) : Z := fold_right Z.add 0 l.

(* the array fits the column: no item changes its place *)
Definition in_place (k : block) (o : block) : Prop :=
  (text_block o -> fixed o = fixed k -> b_item o = b_item k \/ length (b_dims o) = 1%nat) /\
  (text_block o -> fixed o <> fixed k -> b_item o * 4 = b_item k).
Record stackable (fs : list sfile) (p : plan) : Prop := {
  st_order : rotated (p_block p) = false;
  st_small : p_rows p * product (tl (b_dims (p_block p))) < 2 ^ 31;
  st_parts : forall f b d, In f fs -> part_of (p_name p) f = Some (b, d) -> in_place (p_block p) b /\ (dim0 b = 0 -> dataset_length f = 0);
  st_gaps : forall f, In f fs -> part_of (p_name p) f = None -> of_num (fixed (p_block p)) <> Some F80 }.

(* the type [u] has every number of the type [t] *)
Definition kept (t u : dtype) : Prop := holds_integers t u = true \/ (is_float t = false /\ bits t = 64 /\ (is_float u = true \/ bits u = 64)).

(* the names in the order in which they first appear *)
Fixpoint first_names (seen : list name) (ns : list name) : list name :=
  match ns with [] => [] | n :: r => if existsb (name_eqb n) seen then first_names seen r else n :: first_names (n :: seen) r end.
Definition all_names (fs : list sfile) : list name := first_names [] (concat (map (fun f => map co_name (s_cols f)) fs)).

(* arrays of the same name that can be stacked: as many dimensions, the same rows, C order, and all of them numbers or all of them texts *)
Definition alike (a b : block) : Prop :=
  tl (b_dims a) = tl (b_dims b) /\ b_c a = true /\ b_c b = true /\ b_f a = b_f b /\
  ((number_block a /\ number_block b) \/ (text_block a /\ text_block b)).

(* the tasks one after another *)
Fixpoint programs (l : list (option (list step))) : option (list (list step)) :=
  match l with
  | [] => Some []
  | Some x :: r => option_map (cons x) (programs r)
  | None :: _ => None
  end.
Definition sequential (p : plan) (mem : list Z) : option (list Z) :=
  match programs (p_tasks p) with Some ps => run (concat ps) mem | None => None end.
(* row i, column j of an array with two dimensions, in its order *)
Definition cell (b : block) (i j : Z) : Z :=
  if b_c b then i * nth 1 (b_dims b) 0 + j else j * dim0 b + i.
