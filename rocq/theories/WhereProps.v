(** C83: choosing from two operands. *)
From Verif Require Import Base Mem OutModel WhereModel WhereSpec WhereProofs.
Local Open Scope Z_scope.

(** A contiguous condition, operands with the item size of the output, arrays a whole number of items apart: every output item is
    the first operand's where the condition holds and the second's elsewhere; arrays of another length are refused. *)
Theorem C83_where_partial m c x y str size : 0 <= size -> cstride c = 1 -> sized str size x -> sized str size y -> aligned size x y ->
  (goes_with (clen c) x -> goes_with (clen c) y -> Where m c x y str size = WDone (map (chosen m c x y size) (seq 0 (clen c))))
  /\ (~ (goes_with (clen c) x /\ goes_with (clen c) y) -> Where m c x y str size = WError).
Proof.
  intros P C X Y A. split; [|exact (where_refused m c x y str size)]. intros Gx Gy. now apply where_ok; [..|apply length_goes|apply length_goes].
Qed.
Print Assumptions C83_where_partial.

Definition bytes_of (l : list Z) : memory := fun x => match zrd l x with Some v => v | None => 0 end.
(** the condition at 0, two arrays of two-byte items at 3 and 9; two string scalars *)
Example C83_where_example :
  let m := bytes_of [1; 0; 1; 10; 11; 20; 21; 30; 31; 110; 111; 120; 121; 130; 131] in
  aligned 2 (Ram (View 3 2 3)) (Ram (View 9 2 3))
  /\ Where m (Cond 0 1 3) (Ram (View 3 2 3)) (Ram (View 9 2 3)) false 2 = WDone [[10; 11]; [120; 121]; [30; 31]]
  /\ Where m (Cond 0 1 3) (Reg [65]) (Reg [66; 67]) true 3 = WDone [[65; 0; 0]; [66; 67; 0]; [65; 0; 0]].
Proof. split; [exists 3; reflexivity|vm_compute; auto]. Qed.

(** A condition with steps is read as if it were contiguous. *)
Theorem C83_condition_refuted : exists m c x y size i l, sized false size x /\ sized false size y /\ aligned size x y /\ (i < clen c)%nat
  /\ Where m c x y false size = WDone l /\ nth_error l i <> Some (chosen m c x y size i).
Proof. exists (bytes_of [1; 0; 1]), (Cond 0 2 2), (Reg [5]), (Reg [6]), 1, 1%nat. eexists. repeat split; try (cbn; lia). vm_compute. discriminate. Qed.
Print Assumptions C83_condition_refuted.
(** Arrays that are not a whole number of items apart: the second one is read at the wrong address. *)
Theorem C83_unaligned_refuted : exists m c x y size i l, cstride c = 1 /\ sized false size x /\ sized false size y /\ (i < clen c)%nat
  /\ Where m c x y false size = WDone l /\ nth_error l i <> Some (chosen m c x y size i).
Proof. exists (bytes_of [0; 10; 11; 99; 20; 21]), (Cond 0 1 1), (Ram (View 1 2 1)), (Ram (View 4 2 1)), 2, 0%nat. eexists. repeat split; try (cbn; lia). vm_compute. discriminate. Qed.
Print Assumptions C83_unaligned_refuted.
(** Strings of different widths: the narrower array is read with the width of the output. *)
Theorem C83_width_refuted : exists m c x y size i l, cstride c = 1 /\ sized true size x /\ (exists v, y = Ram v /\ isz v < size) /\ (i < clen c)%nat
  /\ Where m c x y true size = WDone l /\ nth_error l i <> Some (chosen m c x y size i).
Proof.
  exists (bytes_of [0; 10; 11; 12; 20; 99]), (Cond 0 1 1), (Ram (View 1 3 1)), (Ram (View 4 1 1)), 3, 0%nat. eexists. split; [reflexivity|].
  split; [reflexivity|]. split; [eexists; split; [reflexivity|cbn; lia]|]. split; [cbn; lia|]. split; [reflexivity|]. vm_compute. discriminate.
Qed.
Print Assumptions C83_width_refuted.
(** A string scalar longer than the item size given by the caller is written past the end of the buffer. *)
Theorem C83_scalar_refuted : exists m c x y size, cstride c = 1 /\ sized true size x /\ Where m c x y true size = WBad.
Proof. exists (bytes_of [1]), (Cond 0 1 1), (Reg [65]), (Reg [66; 67]), 1. repeat split; cbn; lia. Qed.
Print Assumptions C83_scalar_refuted.
