(** Proofs about ShiftArrays from its arguments to its effect. *)
From Verif Require Import Base Mem MemLemmas AllModel EaModel EaSpec Ea2Proofs All3Proofs All4Proofs Bn2Proofs.
From Verif Require Import MkModel ShModel ShSpec.
From Verif Require BnModel WnModel CombModel CombSpec CombProps BnSpec.
Local Open Scope Z_scope.

Lemma take_right c : may_shift c -> exists o, take c = Done o /\ match c with KArray _ a => o = Some (arg_vals [] a) | _ => True end.
Proof.
  destruct c as [|size a|]; cbn [may_shift take]; [eexists; split; [reflexivity|exact Logic.I]| |contradiction]. intros (D & L & OK & S). exists (Some (arg_vals [] a)).
  unfold known_type. rewrite (proj2 (Z.leb_le _ _) (proj1 D)), (proj2 (Z.leb_le _ _) (proj2 D)). cbn [andb].
  rewrite (mlp_right [] (a_len a) a L OK) by (unfold BnSpec.one_by_one; lia). split; reflexivity.
Qed.
Lemma window {X} (zero : X) (a : arg X) l : 0 <= a_len a -> arg_ok (a_len a) a -> (a_step a = 1 \/ a_len a = 0) -> length l = Z.to_nat (a_len a) ->
  let m := firstn (Z.to_nat (a_start a)) (a_mem a) ++ l ++ skipn (Z.to_nat (a_start a + a_len a)) (a_mem a) in
  length m = length (a_mem a) /\ arg_vals zero (mkArg (a_dtype a) m (a_start a) (a_step a) (a_len a)) = l /\
  forall i, Z.of_nat i < a_start a \/ a_start a + a_len a <= Z.of_nat i -> nth_error m i = nth_error (a_mem a) i.
Proof.
  intros HL (_ & HS & HI) ST EL m.
  assert (B : a_start a + a_len a <= Z.of_nat (length (a_mem a))).
  { destruct (Z.eq_dec (a_len a) 0) as [E|N]; [lia|]. destruct ST as [S|S]; [|lia]. specialize (HI (a_len a - 1) ltac:(lia)). rewrite S in HI. lia. }
  assert (LF : length (firstn (Z.to_nat (a_start a)) (a_mem a)) = Z.to_nat (a_start a)) by (rewrite firstn_length; lia).
  assert (LM : length m = length (a_mem a)) by (unfold m; rewrite !app_length, LF, EL, skipn_length; lia).
  split; [exact LM|]. split.
  - unfold arg_vals. cbn [a_len a_start a_mem a_step]. apply nth_ext with (d := zero) (d' := zero); [rewrite map_length, seq_length; now symmetry|].
    intros i Hi. rewrite map_length, seq_length in Hi. erewrite nth_error_nth; [|rewrite nth_error_map, nth_error_seq; destruct (Nat.ltb_spec i (Z.to_nat (a_len a))); [reflexivity|lia]].
    cbn [Nat.add]. destruct ST as [S|S]; [|lia]. rewrite S. replace (Z.to_nat (a_start a + Z.of_nat i * 1)) with (Z.to_nat (a_start a) + i)%nat by lia.
    unfold m. rewrite app_nth2 by lia. rewrite LF. replace (Z.to_nat (a_start a) + i - Z.to_nat (a_start a))%nat with i by lia. now rewrite app_nth1 by lia.
  - intros i Hi. unfold m. destruct (Z.lt_ge_cases (Z.of_nat i) (a_start a)) as [C|C].
    + rewrite nth_error_app1 by lia. rewrite nth_error_firstn. destruct (Nat.ltb_spec i (Z.to_nat (a_start a))); [reflexivity|lia].
    + rewrite nth_error_app2 by lia. rewrite nth_error_app2 by lia. rewrite nth_error_skipn. f_equal. lia.
Qed.
Lemma shift_right k c : may_shift c -> fits k c -> exists m, shift_one k c = Done m /\ shifted_memory k c m.
Proof.
  intros H FT. unfold shift_one. destruct (take_right c H) as (o & E & F). rewrite E. cbn [obind].
  destruct c as [|size a|]; [exists []; split; reflexivity| |destruct H]. subst o. destruct H as (D & L & OK & S). cbn [fits] in FT.
  assert (LV : length (arg_vals [] a) = Z.to_nat (a_len a)) by (apply (arg_vals_length [] (a_len a)); exact OK).
  destruct (Z.leb_spec (2 ^ 63) (Z.of_nat (length (arg_vals [] a)) - k)); [lia|].
  destruct (CombProps.C63_shift_1d (list Z) (length (arg_vals [] a)) 1 k (arg_vals [] a)) as (l' & E' & SH). rewrite E'.
  assert (C : WnModel.contiguous a = true) by (unfold WnModel.contiguous; lia). rewrite C. eexists. split; [reflexivity|]. cbn [shifted_memory].
  destruct (window [] a l' L OK S) as (W1 & W2 & W3); [rewrite (proj1 SH); apply (arg_vals_length [] (a_len a)); exact OK|].
  split; [exact W1|]. split; [|exact W3]. rewrite W2. exact SH.
Qed.
Lemma shift_call cols k : - 2 ^ 63 <= k < 2 ^ 63 -> Forall may_shift cols -> Forall (fits k) cols -> exists ms, ShiftArraysCall cols k = Done ms /\ Forall2 (shifted_memory k) cols ms.
Proof.
  intros HK H FT. unfold ShiftArraysCall. assert (E : int64_ok k = true) by (unfold int64_ok; lia). rewrite E. cbn [negb]. rewrite Forall_forall in H, FT.
  destruct (Ea2Proofs.each_right take (fun _ _ => True) cols) as (os & EO & _); [intros c I; destruct (take_right c (H c I)) as (o & X & _); exists o; split; [exact X|exact Logic.I]|].
  rewrite EO. cbn [obind]. apply Ea2Proofs.each_right. intros c I. exact (shift_right k c (H c I) (FT c I)).
Qed.
Lemma copied_call size a k : 0 <= a_dtype a <= 20 -> arg_ok (a_len a) a -> a_step a <> 1 -> 1 < a_len a -> - 2 ^ 63 <= k < 2 ^ 63 -> a_len a - k < 2 ^ 63 ->
  ShiftArraysCall [KArray size a] k = Done [a_mem a].
Proof.
  intros D OK S L HK FT. unfold ShiftArraysCall. assert (E : int64_ok k = true) by (unfold int64_ok; lia). rewrite E. cbn [negb each]. unfold shift_one, take.
  unfold known_type. rewrite (proj2 (Z.leb_le _ _) (proj1 D)), (proj2 (Z.leb_le _ _) (proj2 D)). cbn [andb].
  rewrite (mlp_right [] (a_len a) a ltac:(lia) OK) by (unfold BnSpec.one_by_one; lia). cbn [obind].
  assert (LV : length (arg_vals [] a) = Z.to_nat (a_len a)) by (apply (arg_vals_length [] (a_len a)); exact OK).
  destruct (Z.leb_spec (2 ^ 63) (Z.of_nat (length (arg_vals [] a)) - k)); [lia|].
  destruct (CombProps.C63_shift_1d (list Z) (length (arg_vals [] a)) 1 k (arg_vals [] a)) as (l' & E' & SH). rewrite E'.
  assert (C : WnModel.contiguous a = false) by (unfold WnModel.contiguous; lia). rewrite C. reflexivity.
Qed.
Lemma refused_take c : no_shift c -> (forall size a, c = KArray size a -> arg_ok (a_len a) a) -> take c = Error.
Proof.
  intros [-> |(size & a & -> & H)] OK; [reflexivity|]. cbn [take]. unfold known_type. destruct (Z.leb_spec 0 (a_dtype a)); [|reflexivity]. destruct (Z.leb_spec (a_dtype a) 20); [|reflexivity]. cbn [andb].
  destruct H as [H|(L & S)]; [lia|]. unfold BnModel.mlp_read, WnModel.contiguous. rewrite L. rewrite (proj2 (Z.eqb_neq _ _) S). reflexivity.
Qed.
Lemma refused_call cols k : ~ (- 2 ^ 63 <= k < 2 ^ 63) \/ (exists c, In c cols /\ no_shift c) -> Forall (fun c => may_shift c \/ no_shift c) cols ->
  (forall size a, In (KArray size a) cols -> arg_ok (a_len a) a) -> ShiftArraysCall cols k = Error.
Proof.
  intros H A OK. unfold ShiftArraysCall. destruct (int64_ok k) eqn:E; [|reflexivity]. cbn [negb]. destruct H as [H|(c & I & N)]; [unfold int64_ok in E; lia|].
  rewrite (each_no_undef take cols c); [reflexivity| |exact I|].
  - intros d Hd. rewrite Forall_forall in A. destruct (A d Hd) as [M|M].
    + destruct (take_right d M) as (o & -> & _). discriminate.
    + rewrite refused_take; [discriminate|exact M|]. intros size a ->. exact (OK size a Hd).
  - apply refused_take; [exact N|]. intros size a ->. exact (OK size a I).
Qed.
Lemma least_call size a : may_shift (KArray size a) -> ShiftArraysCall [KArray size a] (- 2 ^ 63) = Undefined.
Proof.
  intros H. unfold ShiftArraysCall. change (int64_ok (- 2 ^ 63)) with true. cbn [negb each]. destruct (take_right _ H) as (o & E & F). cbn beta iota in F. unfold shift_one. rewrite E.
  cbn [obind]. subst o. destruct (Z.leb_spec (2 ^ 63) (Z.of_nat (length (arg_vals [] a)) - - 2 ^ 63)); [reflexivity|lia].
Qed.
