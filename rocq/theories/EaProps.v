(** Property C102: EmaAll32 from its arguments to its results. *)
From Coq Require Import Reals.
From Verif Require Import Base Mem AccumSpec EmaModel EmaSpec AllModel AllSpec AllProofs All4Proofs EaModel EaSpec EaProofs Ea2Proofs Ea3Proofs.
Local Open Scope Z_scope.

(** Running sums, products, counts and extremes: every column gets an array of the right type with one value for each row: the value for the rows
    of its group up to this one since the last reset.  Columns of a type that is not supported get None.
    Missing, and refuted below or with C67: keys, masks and times with gaps between their elements; columns of another length than the key;
    keys above the number of groups; rows of no group of extremes. *)
Theorem C102_running_partial :
  forall F (A : arith F) fexp fneg junk key unique func cs time include reset rate,
  arith_ok A -> key_ok key -> k_step key = 1 \/ k_len key <= 1 -> Forall (fun k => k <= unique) (key_vals key) -> 0 <= unique -> (unique + 1) * 16 < 2 ^ 63 -> cs <> [] ->
  Forall (column_given (k_len key)) cs -> In func running -> mask_given (k_len key) include -> mask_given (k_len key) reset -> time_given (k_len key) time ->
  (func = 303 -> k_len key < 2 ^ 31) -> (In func [306; 307; 308; 309] -> include = PNone -> reset = PNone -> Forall (fun k => 0 <= k) (key_vals key)) ->
  exists res, EmaAll32 A fexp fneg junk (map OArray cs) key unique func (PTuple (Some rate) time include reset) = Done res /\
    Forall2 (column_answer A func (key_vals key) (mask_vals include) (mask_vals reset)) cs res.
Proof. exact @running_right. Qed.
Print Assumptions C102_running_partial.
Example C102_running_ex :
  let call f im rm := EmaW [col 5 [10; -4; 7; 2]; OArray (floats 12 [Some 8; None; Some 2; Some 1]); OArray (mkCol 18 1 [I 0; I 0; I 0; I 0] 4 4)] (a_key [2; 1; 2; 2]) 2 f (PTuple (Some (Some 0)) PNone im rm) in
  call 300 PNone PNone = Done [Some (7, map Some [I 10; I (-4); I 17; I 19]); Some (12, map Some [R (Some 8); R None; R (Some 10); R (Some 11)]); None] /\
  call 302 PNone (bools [false; false; false; true]) = Done [Some (7, map Some [I 10; I (-4); I 70; I 2]); Some (12, map Some [R (Some 8); R None; R (Some 16); R (Some 1)]); None] /\
  call 303 (bools [true; true; false; true]) PNone = Done [Some (5, map Some [I 1; I 1; I 0; I 2]); Some (5, map Some [I 1; I 1; I 0; I 2]); Some (5, map Some [I 1; I 1; I 0; I 2])] /\
  call 307 PNone PNone = Done [Some (5, map Some [I 10; I (-4); I 7; I 2]); Some (12, map Some [R (Some 8); R None; R (Some 2); R (Some 1)]); None] /\
  call 308 PNone PNone = Done [Some (5, map Some [I 10; I (-4); I 10; I 10]); Some (12, map Some [R (Some 8); R None; R (Some 8); R (Some 8)]); None].
Proof. cbv zeta. split; [vm_compute; reflexivity|]. split; [vm_compute; reflexivity|]. split; [vm_compute; reflexivity|]. split; vm_compute; reflexivity. Qed.
Example C102_running_hyp : arith_ok whole /\ key_ok (a_key [2; 1; 2; 2]) /\ Forall (column_given 4) [ints 5 [10; -4; 7; 2]; floats 12 [Some 8; None; Some 2; Some 1]] /\
  mask_given 4 (bools [true; true; false; true]) /\ time_given (F := option Z) 4 (PArray (int_arg 7 [1; 2; 3; 4])).
Proof.
  split; [exact whole_ok|]. split.
  { split; [reflexivity|]. split; [cbn; auto|]. cbn [a_key k_len k_start k_step k_mem length]. split; [lia|]. split; [lia|]. intros i. lia. }
  split.
  { constructor; [|constructor; [|constructor]]; split; (split; [reflexivity|split; [discriminate|split; [reflexivity|reflexivity]]]) || idtac.
    - exists [10; -4; 7; 2]. split; [reflexivity|]. repeat constructor; lia.
    - intros _. now exists [Some 8; None; Some 2; Some 1]. }
  split; (split; [cbn; lia|]); (split; [|left; reflexivity]); (split; [reflexivity|]); (split; [cbn; lia|]); intros i; cbn; lia.
Qed.

(** Decayed sums and moving averages, over the real numbers: the times have 32 or 64 bits and are no long double, their differences can be had.
    Missing, and refuted below or with C68 and C69: long double times, both masks, masks for averages, signed times that are not negative for
    the average by time, rounding. *)
Theorem C102_averages_partial :
  forall (A : arith real) junk key unique func cs (a : arg (num real)) include reset rate,
  real_arith A -> key_ok key -> k_step key = 1 \/ k_len key <= 1 -> Forall (fun k => k <= unique) (key_vals key) -> 0 <= unique -> (unique + 1) * 16 < 2 ^ 63 -> cs <> [] ->
  Forall (shaped (k_len key)) cs -> In func averages -> mask_given (k_len key) include -> mask_given (k_len key) reset -> arg_ok (k_len key) a -> gapless a ->
  averages_ok func (key_vals key) a include reset ->
  exists res, EmaAll32 A exp Ropp junk (map OArray cs) key unique func (PTuple (Some rate) (PArray a) include reset) = Done res /\
    Forall2 (average_answer A func rate (key_vals key) (arg_vals (I 0) a) (mask_vals include) (mask_vals reset)) cs res.
Proof. exact averages_right. Qed.
Print Assumptions C102_averages_partial.
Example C102_averages_hyp : real_arith reals /\ averages_ok 301 [1; 1; 2] (int_arg 7 [10; 20; 20]) PNone (bools [false; true; false]) /\
  averages_ok 304 [1; 1; 2] (int_arg 6 [10; 20; 20]) PNone PNone.
Proof.
  split; [repeat split|].
  assert (G : forall d l, Forall (fun z => 0 <= z < 2 ^ 31) l -> In d [6; 7] -> (forall i j x y, (j < i)%nat -> nth_error l i = Some x -> nth_error l j = Some y -> y <= x) ->
    elements_ok (F := real) d (map I l) /\ times_ok d [1; 1; 2] (map I l)).
  { intros d l HR HD HS. split.
    - rewrite Forall_forall in HR. cbn [In] in HD. destruct HD as [<- | [<- | []]]; exists l; (split; [reflexivity|]); apply Forall_forall; intros z Hz; specialize (HR z Hz); lia.
    - intros i j k ti tj Hj _ _ E1 E2. rewrite nth_error_map in E1, E2. destruct (nth_error l j) as [y|] eqn:Ey; [|discriminate E1]. destruct (nth_error l i) as [x|] eqn:Ex; [|discriminate E2].
      injection E1 as <-. injection E2 as <-. pose proof (HS i j x y Hj Ex Ey). pose proof (nth_error_In _ _ Ex). pose proof (nth_error_In _ _ Ey). rewrite Forall_forall in HR. pose proof (HR x H0). pose proof (HR y H1).
      cbn [In] in HD. destruct HD as [<- | [<- | []]]; [change (y <= x); lia|change (- 2 ^ 63 <= x - y < 2 ^ 63); cbv beta in *; lia]. }
  destruct (G 7 [10; 20; 20]) as (E7 & T7); [repeat constructor; lia|cbn; auto| |].
  { intros i j x y Hj Ex Ey. destruct i as [|[|[|i]]], j as [|[|[|j]]]; cbn in *; try discriminate; try lia; try (injection Ex as <-; injection Ey as <-; lia); destruct i; discriminate. }
  destruct (G 6 [10; 20; 20]) as (E6 & T6); [repeat constructor; lia|cbn; auto| |].
  { intros i j x y Hj Ex Ey. destruct i as [|[|[|i]]], j as [|[|[|j]]]; cbn in *; try discriminate; try lia; try (injection Ex as <-; injection Ey as <-; lia); destruct i; discriminate. }
  split.
  - split; [cbn; lia|]. split; [exact E7|]. split; [exact T7|]. split; [auto|]. split; [congruence|discriminate].
  - split; [cbn; lia|]. split; [exact E6|]. split; [exact T6|]. split; [discriminate|]. split; [intros _; repeat split; repeat constructor; lia|]. intros _ H. cbn in H. exfalso. lia.
Qed.

(** What is refused: a key of another type; parameters that are not a tuple of a number and three objects; masks that are not bool or have another
    length than the key; times of another type or length; something that is no array of one dimension among the columns; columns of
    different lengths; numbers that do not fit in 64 bits. *)
Theorem C102_refused :
  forall F (A : arith F) fexp fneg junk key unique func,
  let call := EmaAll32 A fexp fneg junk in
  (forall cols ps, ~ In (k_dtype key) [1; 3; 5; 7; 9] -> call cols key unique func ps = Error) /\
  (forall cols ps, ps = PWrong \/ (exists t i r, ps = PTuple None t i r) -> call cols key unique func ps = Error) /\
  (forall cols ps, ~ (- 2 ^ 63 <= unique < 2 ^ 63) \/ ~ (- 2 ^ 63 <= func < 2 ^ 63) -> call cols key unique func ps = Error) /\
  (forall cols rate t i r, mask_wrong (k_len key) r -> call cols key unique func (PTuple rate t i r) = Error) /\
  (0 <= k_len key -> forall rate t i r, mask_given (k_len key) r ->
    (forall cols, mask_wrong (k_len key) i -> call cols key unique func (PTuple rate t i r) = Error) /\
    (mask_given (k_len key) i ->
      (forall cols, time_wrong (k_len key) t -> call cols key unique func (PTuple rate t i r) = Error) /\
      (time_given (k_len key) t ->
        (forall n cs o rest, Forall (shaped n) cs -> o = OOther \/ (exists c, o = OArray c /\ (c_dtype c = -1 \/ c_ndim c <> 0 /\ c_ndim c <> 1)) ->
           call (map OArray cs ++ o :: rest) key unique func (PTuple rate t i r) = Error) /\
        (forall c c' n n', shaped n c -> shaped n' c' -> n <> n' -> call [OArray c; OArray c'] key unique func (PTuple rate t i r) = Error)))).
Proof.
  intros F A fexp fneg junk key unique func call. split; [intros; now apply bad_key|]. split; [intros; now apply bad_params|]. split; [intros; now apply bad_numbers|].
  split; [intros; now apply bad_reset|]. intros HL rate t i r HR. split; [intros; now apply bad_include|]. intros HI. split; [intros; now apply bad_time|]. intros HT. split.
  - intros n cs o rest HS HO. apply bad_columns; auto. now apply (not_columns n).
  - intros c c' n n' H H' N. apply bad_columns; auto. now apply (odd_columns c c' n n').
Qed.
Print Assumptions C102_refused.
Example C102_refused_ex : mask_wrong 2 (bools [true]) /\ time_wrong (F := Z) 2 (PArray (int_arg 3 [1; 2])) /\ shaped 2 (ints 5 [1; 2]) /\ shaped 1 (ints 5 [1]).
Proof.
  split; [eexists; split; [reflexivity|]; right; discriminate|]. split; [eexists; split; [reflexivity|]; left; cbn; lia|]. split; repeat split; discriminate.
Qed.

(** Functions that are not known, and averages without times, give None for each column. *)
Theorem C102_none :
  forall F (A : arith F) fexp fneg junk key unique func cs time include reset rate,
  key_ok key -> k_step key = 1 \/ k_len key <= 1 -> - 2 ^ 63 <= unique < 2 ^ 63 -> 0 <= func < 2 ^ 32 -> cs <> [] -> Forall (shaped (k_len key)) cs ->
  mask_given (k_len key) include -> mask_given (k_len key) reset -> time_given (k_len key) time ->
  ~ In func running /\ ~ In func averages \/ In func averages /\ time = PNone ->
  EmaAll32 A fexp fneg junk (map OArray cs) key unique func (PTuple (Some rate) time include reset) = Done (map (fun _ => None) cs).
Proof. exact @no_column. Qed.
Print Assumptions C102_none.
Example C102_none_ex : EmaW [col 5 [1; 2]; col 7 [3; 4]] (a_key [1; 1]) 1 301 (PTuple (Some None) PNone PNone PNone) = Done [None; None] /\ ~ In 299 running /\ ~ In 299 averages /\ In 301 averages.
Proof. split; [vm_compute; reflexivity|]. cbn. split; [lia|]. split; [lia|auto]. Qed.

(** Keys with gaps between their elements are read as if there were none: here 1, 1, 1 as 1, 2, 1. *)
Theorem C102_strided_refuted :
  exists key c res, key_ok key /\ shaped (k_len key) c /\ Forall (fun k => 1 <= k <= 2) (k_mem key) /\ EmaW [OArray c] key 2 303 (PTuple (Some None) PNone PNone PNone) = Done [res] /\
    ~ column_answer whole 303 (key_vals key) None None c res.
Proof.
  exists (mkKey 5 1 [1; 2; 1; 2; 1; 2] 0 2 3), (ints 5 [0; 0; 0]), (Some (5, map Some [I 1; I 1; I 2])). split.
  { split; [reflexivity|]. split; [cbn; auto|]. cbn [k_len k_start k_step k_mem length]. split; [lia|]. split; [lia|]. intros i. lia. }
  split; [repeat split; discriminate|]. split; [repeat constructor; lia|]. split; [vm_compute; reflexivity|].
  intros (out & E & (_ & H)). injection E as <-. specialize (H 1%nat 1 eq_refl). destruct H as (v & Ev & z & -> & Hz). injection Ev as <-. specialize (Hz 1 eq_refl). discriminate Hz.
Qed.
Print Assumptions C102_strided_refuted.

(** A column that is shorter than the key is read past its end. *)
Theorem C102_column_refuted :
  exists key c, key_ok key /\ k_step key = 1 /\ Forall (fun k => 1 <= k <= 1) (key_vals key) /\ shaped 1 c /\ EmaW [OArray c] key 1 300 (PTuple (Some None) PNone PNone PNone) = Undefined.
Proof.
  exists (a_key [1; 1]), (ints 5 [7]). split.
  { split; [reflexivity|]. split; [cbn; auto|]. cbn [a_key k_len k_start k_step k_mem length]. split; [lia|]. split; [lia|]. intros i. lia. }
  split; [reflexivity|]. split; [change (key_vals (a_key [1; 1])) with [1; 1]; constructor; [lia|]; constructor; [lia|]; constructor|]. split; [repeat split; discriminate|]. vm_compute. reflexivity.
Qed.
Print Assumptions C102_column_refuted.

(** Something that is no array is read as if it were a mask or the times; a call without columns writes outside of its memory;
    long double times overrun the output; with int64 times that are not negative the average by time overflows. *)
Theorem C102_undefined_refuted :
  exists key c, key_ok key /\ k_step key = 1 /\ Forall (fun k => 1 <= k <= 1) (key_vals key) /\ shaped (k_len key) c /\
    EmaW [OArray c] key 1 300 (PTuple (Some None) PNone POther PNone) = Undefined /\
    EmaW [OArray c] key 1 300 (PTuple (Some None) PNone PNone POther) = Undefined /\
    EmaW [OArray c] key 1 300 (PTuple (Some None) POther PNone PNone) = Undefined /\
    EmaW [] key 1 300 (PTuple (Some None) PNone PNone PNone) = Undefined /\
    EmaW [OArray c] key 1 301 (PTuple (Some None) (PArray (mkArg 13 [R (Some 1); R (Some 2)] 0 1 2)) PNone PNone) = Undefined /\
    EmaW [OArray c] key 1 304 (PTuple (Some None) (PArray (int_arg 7 [1; 2])) PNone PNone) = Undefined.
Proof.
  exists (a_key [1; 1]), (ints 5 [7; 8]). split.
  { split; [reflexivity|]. split; [cbn; auto|]. cbn [a_key k_len k_start k_step k_mem length]. split; [lia|]. split; [lia|]. intros i. lia. }
  split; [reflexivity|]. split; [change (key_vals (a_key [1; 1])) with [1; 1]; constructor; [lia|]; constructor; [lia|]; constructor|]. split; [repeat split; discriminate|]. split; [vm_compute; reflexivity|]. split; [vm_compute; reflexivity|]. split; [vm_compute; reflexivity|].
  split; [vm_compute; reflexivity|]. split; vm_compute; reflexivity.
Qed.
Print Assumptions C102_undefined_refuted.
