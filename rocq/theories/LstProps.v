(** C91: arrays made of lists. *)
From Verif Require Import Base LstModel LstSpec LstProofs.
Local Open Scope Z_scope.

(** AsAnyArray and AsFastArray of a list of ints, bools, floats, bytes or strings give an array of the items. Missing: ints of more than
    64 bits, bytes that are all empty, strings of which one is shorter than another by two or more. *)
Theorem C91_list_partial fast long4 junk numpy arg2 copy order l :
  (forall x y, In x l -> In y l -> ty x = ty y) -> one_kind (map pv l) -> fits (map pv l) -> copy <> Wrong -> order <> Wrong ->
  exists a, AsAnyArray long4 junk numpy 1 arg2 Absent copy order (PList l) = Made a /\ AsFastArray fast long4 junk numpy 1 arg2 Absent copy order (PList l) = Made a /\ denotes a (map pv l).
Proof.
  intros T K F C O. destruct (list_made long4 junk l T K F) as (a & E & D). exists a. unfold AsFastArray, AsAnyArray. cbn [Nat.eqb orb negb andb ProcessAsArrayKwargs]. rewrite E.
  destruct copy, order; try contradiction; auto.
Qed.
Print Assumptions C91_list_partial.
Example C91_case : let l := [PI 7 (VStr [97; 98]); PI 7 (VStr [99])] in (forall x y, In x l -> In y l -> ty x = ty y) /\ one_kind (map pv l) /\ fits (map pv l) /\
  AsAnyArray false (fun _ => 5) None 1 true Absent Absent Absent (PList l) = Made (AStr 8 [97; 98; 99; 0]).
Proof.
  cbn zeta. split; [intros x y [<- | [<- | []]] [<- | [<- | []]]; reflexivity|]. split; [right; right; right; right; exists [[97; 98]; [99]]; reflexivity|]. split; [|reflexivity].
  split; [|split]; cbn [map pv In]. - intros z [H | [H | []]]; discriminate. - intros s [H | [H | []]]; discriminate.
  - intros s t [H | [H | []]] [G | [G | []]]; injection H as <-; injection G as <-; cbn; lia.
Qed.
Example C91_bytes_case : AsAnyArray false (fun _ => 5) None 1 true Absent Absent Absent (PList [PI 3 (VBytes []); PI 3 (VBytes [97; 98])]) = Made (ABytes 2 [0; 0; 97; 98]).
Proof. reflexivity. Qed.
(** Making an array of a list never writes outside of the array. *)
Theorem C91_list_safe fast long4 junk numpy arg2 copy order l : one_kind (map pv l) -> from_any numpy <> UB -> numpy <> None ->
  AsAnyArray long4 junk numpy 1 arg2 Absent copy order (PList l) <> UB /\ AsFastArray fast long4 junk numpy 1 arg2 Absent copy order (PList l) <> UB.
Proof.
  intros K N NN. pose proof (list_safe long4 junk l (or_intror K)) as S. unfold AsFastArray, AsAnyArray. cbn [Nat.eqb orb negb andb ProcessAsArrayKwargs].
  assert (R : from_any numpy <> Raises) by (destruct numpy as [a|]; [|contradiction]; cbn; destruct (q_dims a); [destruct (q_dtype a =? 17)|]; discriminate).
  assert (R2 : of_list long4 junk l <> Some Raises).
  { unfold of_list. destruct l as [|x r]; [discriminate|]. destruct (negb _); [discriminate|]. cbn zeta. destruct (pv x); try discriminate; [destruct (if long4 then _ else _); discriminate| |]; match goal with |- context [match ?o with Some _ => _ | None => _ end] => destruct o end; discriminate. }
  destruct (of_list long4 junk l) as [[]|], (from_any numpy); unfold settled; destruct copy, order; cbn; split; congruence.
Qed.
Print Assumptions C91_list_safe.
Example C91_safe_case : one_kind (map pv [PI 1 (VStr [1; 2; 3]); PI 1 (VStr [])]) /\ from_any (Some (NPA 5 4 [] [1; 0; 0; 0])) <> UB.
Proof. split; [right; right; right; right; exists [[1; 2; 3]; []]; reflexivity|discriminate]. Qed.
(** A scalar becomes an array of one item with the same bytes. Missing: objects. *)
Theorem C91_scalar_partial long4 junk dtype item d arg2 copy order : dtype <> 17 -> copy <> Wrong -> order <> Wrong ->
  AsAnyArray long4 junk (Some (NPA dtype item [] d)) 1 arg2 Absent copy order PElse = Numpy (NPA dtype item [1] d).
Proof. intros T C O. unfold AsAnyArray. cbn. destruct (Z.eqb_spec dtype 17); [contradiction|]. destruct copy, order; try contradiction; reflexivity. Qed.
Print Assumptions C91_scalar_partial.

(** An int that does not fit in 64 bits becomes -1. *)
Theorem C91_big_int_refuted : exists l, one_kind (map pv l) /\ (forall x y, In x l -> In y l -> ty x = ty y) /\
  forall junk numpy, AsAnyArray false junk numpy 1 true Absent Absent Absent (PList l) = Made (AInt 8 [5; -1]) /\ ~ denotes (AInt 8 [5; -1]) (map pv l).
Proof.
  exists [PI 1 (VInt 5); PI 1 (VInt (2 ^ 63))]. split; [left; exists [5; 2 ^ 63]; reflexivity|]. split; [intros x y [<- | [<- | []]] [<- | [<- | []]]; reflexivity|]. intros. split; [reflexivity|]. discriminate.
Qed.
Print Assumptions C91_big_int_refuted.
(** A string that is shorter than the longest by two or more is followed by what was in the memory. *)
Theorem C91_short_string_refuted : exists l a, one_kind (map pv l) /\ (forall x y, In x l -> In y l -> ty x = ty y) /\
  (forall numpy, AsAnyArray false (fun _ => 90) numpy 1 true Absent Absent Absent (PList l) = Made a) /\ ~ denotes a (map pv l).
Proof.
  exists [PI 1 (VStr [97; 98; 99]); PI 1 (VStr [100])]. eexists. split; [right; right; right; right; exists [[97; 98; 99]; [100]]; reflexivity|].
  split; [intros x y [<- | [<- | []]] [<- | [<- | []]]; reflexivity|]. split; [intros; reflexivity|]. cbn [denotes]. intros [_ H]. destruct (H 1%nat (VStr [100]) eq_refl) as (s & E & T). injection E as <-.
  specialize (T 2%nat). vm_compute in T. discriminate.
Qed.
Print Assumptions C91_short_string_refuted.
(** Of bytes that are all empty only the first is. *)
Theorem C91_empty_bytes_refuted : exists l a, one_kind (map pv l) /\ (forall x y, In x l -> In y l -> ty x = ty y) /\
  (forall numpy, AsAnyArray false (fun _ => 90) numpy 1 true Absent Absent Absent (PList l) = Made a) /\ ~ denotes a (map pv l).
Proof.
  exists [PI 1 (VBytes []); PI 1 (VBytes [])]. eexists. split; [right; right; right; left; exists [[]; []]; reflexivity|].
  split; [intros x y [<- | [<- | []]] [<- | [<- | []]]; reflexivity|]. split; [intros; reflexivity|]. cbn [denotes]. intros [_ H]. destruct (H 1%nat (VBytes []) eq_refl) as (s & E & T). injection E as <-.
  specialize (T 0%nat). vm_compute in T. discriminate.
Qed.
Print Assumptions C91_empty_bytes_refuted.
(** An object that is not a list becomes an array that holds it without counting a reference. *)
Theorem C91_object_refuted : exists a, q_dtype a = 17 /\ q_dims a = [] /\ forall long4 junk, AsAnyArray long4 junk (Some a) 1 true Absent Absent Absent PElse = UB.
Proof. exists (NPA 17 8 [] [1; 2; 3; 4; 5; 6; 7; 8]). repeat split. Qed.
Print Assumptions C91_object_refuted.
(** A copy= that is not a bool, or an order= that is not a string, sets an exception and goes on. *)
Theorem C91_wrong_keyword_refuted : exists l, one_kind (map pv l) /\ forall long4 junk numpy, AsAnyArray long4 junk numpy 1 true Absent Wrong Absent (PList l) = SysErr /\ AsAnyArray long4 junk numpy 1 true Absent Absent Wrong (PList l) = SysErr.
Proof. exists [PI 1 (VFloat 0)]. split; [right; right; left; exists [0]; reflexivity|]. split; reflexivity. Qed.
Print Assumptions C91_wrong_keyword_refuted.
(** Whatever makes AsAnyArray raise makes AsFastArray read the type of a null pointer. *)
Theorem C91_fast_array_refuted : exists nargs o, forall long4 junk numpy arg2 dt copy order,
  AsAnyArray long4 junk numpy nargs arg2 dt copy order o = Raises /\ AsFastArray true long4 junk numpy nargs arg2 dt copy order o = UB.
Proof. exists 0%nat, PElse. split; reflexivity. Qed.
Print Assumptions C91_fast_array_refuted.
