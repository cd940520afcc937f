(** Property C127: ShiftArrays from its arguments to its effect. *)
From Verif Require Import Base Mem AllModel EaModel EaSpec.
From Verif Require Import MkModel ShModel ShSpec ShProofs.
Local Open Scope Z_scope.

(** ** C127.  Missing: arrays with gaps, which are left as they are ([C127_gaps_refuted]), and amounts for
    which a difference overflows ([C127_least_refuted]); for arrays of two dimensions see C63. *)
Theorem C127_shift_partial : forall cols k, - 2 ^ 63 <= k < 2 ^ 63 -> Forall may_shift cols -> Forall (fits k) cols ->
  exists ms, ShiftArraysCall cols k = Done ms /\ Forall2 (shifted_memory k) cols ms.
Proof. exact shift_call. Qed.
Print Assumptions C127_shift_partial.
Theorem C127_refused : forall cols k, ~ (- 2 ^ 63 <= k < 2 ^ 63) \/ (exists c, In c cols /\ no_shift c) -> Forall (fun c => may_shift c \/ no_shift c) cols ->
  (forall size a, In (KArray size a) cols -> arg_ok (a_len a) a) -> ShiftArraysCall cols k = Error.
Proof. exact refused_call. Qed.
Print Assumptions C127_refused.
(** Three of five elements; an array of two elements; None. *)
Definition some_columns : list key_column :=
  [KArray 1 (mkArg 1 [[9]; [1]; [2]; [3]; [8]] 1 1 3); KNone; KArray 2 (mkArg 3 [[1; 0]; [2; 0]] 0 1 2)].
Example C127_example :
  Forall may_shift some_columns /\ Forall (fits 1) some_columns /\ Forall (fits (-2)) some_columns /\
  ShiftArraysCall some_columns 1 = Done [[[9]; [2]; [3]; [3]; [8]]; []; [[2; 0]; [2; 0]]] /\
  ShiftArraysCall some_columns (-2) = Done [[[9]; [1]; [2]; [1]; [8]]; []; [[1; 0]; [2; 0]]] /\
  ShiftArraysCall (some_columns ++ [KOther]) 1 = Error.
Proof.
  split; [|split; [|split; [|vm_compute; repeat split]]]; [|repeat constructor..].
  unfold some_columns. constructor; [|constructor; [exact Logic.I|constructor; [|constructor]]]; cbn [may_shift a_dtype a_len a_step]; (split; [lia|]); (split; [lia|]);
    (split; [|left; reflexivity]); unfold arg_ok; cbn [a_len a_start a_mem a_step length]; (split; [lia|]); (split; [lia|intros; lia]).
Qed.
(** An array with gaps is copied and the copy is shifted: the array is not. *)
Theorem C127_gaps_refuted : forall size a k, 0 <= a_dtype a <= 20 -> arg_ok (a_len a) a -> a_step a <> 1 -> 1 < a_len a -> - 2 ^ 63 <= k < 2 ^ 63 -> a_len a - k < 2 ^ 63 ->
  ShiftArraysCall [KArray size a] k = Done [a_mem a].
Proof. exact copied_call. Qed.
Print Assumptions C127_gaps_refuted.
Example C127_gaps_ex : let a := mkArg 1 [[1]; [2]; [3]; [4]] 0 2 2 in arg_ok (a_len a) a /\ ShiftArraysCall [KArray 1 a] 1 = Done [[[1]; [2]; [3]; [4]]] /\
  arg_vals [] a = [[1]; [3]] /\ ~ shifted_memory 1 (KArray 1 a) [[1]; [2]; [3]; [4]].
Proof.
  cbv zeta. split; [unfold arg_ok; cbn [a_len a_start a_mem a_step length]; split; [lia|]; split; [lia|intros; lia]|]. split; [reflexivity|]. split; [reflexivity|].
  intros (_ & (_ & H) & _). specialize (H 0%nat ltac:(vm_compute; lia)). vm_compute in H. discriminate H.
Qed.
(** The least amount: a signed overflow for every array. *)
Theorem C127_least_refuted : forall size a, may_shift (KArray size a) -> ShiftArraysCall [KArray size a] (- 2 ^ 63) = Undefined.
Proof. exact least_call. Qed.
Print Assumptions C127_least_refuted.
Example C127_least_ex : may_shift (KArray 1 (mkArg 1 [[1]] 0 1 1)).
Proof.
  cbn [may_shift a_dtype a_len a_step]; (split; [lia|]); (split; [lia|]); (split; [|left; reflexivity]); unfold arg_ok; cbn [a_len a_start a_mem a_step length]; (split; [lia|]);
    (split; [lia|intros; lia]).
Qed.
