(** C92: adding arrays of strings. *)
From Verif Require Import Base LstModel LstSpec CatModel CatSpec CatProofs.
Local Open Scope Z_scope.

(** Two arrays of strings of one type and length are added item by item. Missing: items with zeros that are not at the end, more than
    one dimension, an output array. *)
Theorem C92_arrays_partial junk out n a b : is_str (s_type a) = true -> s_type b = s_type a -> row n a -> row n b -> clean_row n a -> clean_row n b ->
  holds (Add junk out (AA a b)) (s_type a) n (fun i => strip (item_of a i) ++ strip (item_of b i)).
Proof. exact (add_arrays junk out n a b). Qed.
Print Assumptions C92_arrays_partial.
(** An array of strings and a string of its type are added item by item, in either order. *)
Theorem C92_scalar_partial junk out n a s : suits s (s_type a) -> row n a -> clean_row n a -> ~ In 0 (chars s) ->
  holds (Add junk out (AS a s)) (s_type a) n (fun i => strip (item_of a i) ++ chars s) /\ holds (Add junk out (SA s a)) (s_type a) n (fun i => chars s ++ strip (item_of a i)).
Proof. exact (add_scalar junk out n a s). Qed.
Print Assumptions C92_scalar_partial.
(** Nothing outside of arrays of one dimension is read. *)
Theorem C92_safe junk out n o : match o with AA a b => row n a /\ exists k, row k b | AS a _ | SA _ a => row n a end -> Add junk out o <> Wild.
Proof. exact (add_safe junk out n o). Qed.
Print Assumptions C92_safe.
Definition ex1 : sarr := SArr 18 3 [2] [3] [97; 98; 0; 99; 0; 0].
Definition ex2 : sarr := SArr 18 2 [2] [2] [100; 101; 102; 0].
Example C92_case : row 2 ex1 /\ row 2 ex2 /\ clean_row 2 ex1 /\ clean_row 2 ex2 /\ suits (SBytes [33]) (s_type ex1) /\
  Add (fun _ => 7) false (AA ex1 ex2) = NewArr 18 5 2 [97; 98; 100; 101; 0; 99; 102; 0; 0; 0] /\
  Add (fun _ => 7) false (AS ex1 (SBytes [33])) = NewArr 18 4 2 [97; 98; 33; 0; 99; 33; 0; 0] /\
  Add (fun _ => 7) false (SA (SBytes [33]) ex1) = NewArr 18 4 2 [33; 97; 98; 0; 33; 99; 0; 0].
Proof.
  split; [repeat split; cbn; lia|]. split; [repeat split; cbn; lia|]. split; [intros i I; destruct i as [|[|]]; [| |lia]; vm_compute; intuition discriminate|].
  split; [intros i I; destruct i as [|[|]]; [| |lia]; vm_compute; intuition discriminate|]. repeat split.
Qed.
(** What follows a zero in an item is lost. *)
Theorem C92_zero_inside_refuted : exists a, row 1 a /\ forall junk out, Add junk out (AS a (SBytes [100])) = NewArr 18 4 1 [97; 100; 0; 0] /\ strip (item_of a 0) = [97; 0; 98].
Proof. exists (SArr 18 3 [1] [3] [97; 0; 98]). split; [repeat split; cbn; lia|]. intros junk []; split; reflexivity. Qed.
Print Assumptions C92_zero_inside_refuted.
(** The result has one dimension, whatever the arrays have: a matrix in column order is given back as a row, in that order. *)
Theorem C92_shape_refuted : exists a, s_dims a = [2; 2] /\ s_strides a = [1; 2] /\ forall junk out, Add junk out (AS a (SBytes [33])) = NewArr 18 2 4 [97; 33; 98; 33; 99; 33; 100; 33].
Proof. exists (SArr 18 1 [2; 2] [1; 2] [97; 98; 99; 100]). split; [reflexivity|]. split; [reflexivity|]. intros junk []; reflexivity. Qed.
Print Assumptions C92_shape_refuted.
(** Only the distance of the first dimension is looked at: every other column of one line is taken for neighbours, and reading goes on after
    the end. *)
Theorem C92_strides_refuted : (exists a, s_dims a = [1; 2] /\ s_strides a = [4; 2] /\ s_mem a = [97; 98; 99; 100] /\ forall junk out, Add junk out (AS a (SBytes [33])) = NewArr 18 2 2 [97; 33; 98; 33]) /\
  exists a, s_dims a = [1; 2] /\ s_strides a = [1; 0] /\ s_mem a = [97] /\ forall junk out, Add junk out (AS a (SBytes [33])) = Wild.
Proof. split; [exists (SArr 18 1 [1; 2] [4; 2] [97; 98; 99; 100])|exists (SArr 18 1 [1; 2] [1; 0] [97])]; (split; [reflexivity|]); (split; [reflexivity|]); (split; [reflexivity|]); intros junk []; reflexivity. Qed.
Print Assumptions C92_strides_refuted.
(** With an output array, which is not written to, the types are not compared: of a string of characters only the first byte is added to bytes,
    and the bytes of a string are used as a number. *)
Theorem C92_output_refuted : (exists a, row 1 a /\ s_type a = 18 /\ forall junk, Add junk false (AS a (SStr [98; 99])) = Punts /\ Add junk true (AS a (SStr [98; 99])) = NewArr 18 9 1 [97; 98; 0; 0; 0; 0; 0; 0; 0]) /\
  exists a, row 1 a /\ s_type a = 5 /\ forall junk, Add junk false (AS a (SBytes [98; 99])) = Punts /\ Add junk true (AS a (SBytes [98; 99])) = Punned.
Proof. split; [exists (SArr 18 1 [1] [1] [97])|exists (SArr 5 1 [1] [1] [97])]; (split; [repeat split; cbn; lia|]); repeat split. Qed.
Print Assumptions C92_output_refuted.
(** An array of one item is not added to the items of a longer one; that is left to numpy, which cannot add strings. *)
Theorem C92_one_item_refuted : exists a b, row 1 a /\ row 2 b /\ forall junk out, Add junk out (AA a b) = Punts /\ Add junk out (AA b a) = Punts.
Proof. exists (SArr 18 1 [1] [1] [97]), (SArr 18 1 [2] [1] [98; 99]). split; [repeat split; cbn; lia|]. split; [repeat split; cbn; lia|]. split; reflexivity. Qed.
Print Assumptions C92_one_item_refuted.
