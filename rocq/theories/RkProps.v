(** Property C121: MultiKeyRolling from its arguments to its results. *)
From Verif Require Import Base Mem AllModel EaModel EaSpec.
From Verif Require Import HashSpec MkModel MkSpec RkModel RkSpec RkProofs.
Local Open Scope Z_scope.

(** ** C121.  Missing: tuples of three or more columns ([C121_three_refuted]), rows of more than 16 bytes ([C121_wide_refuted]), hints that are too small, a
    change of the columns. *)
Theorem C121_streams_partial : forall crc_bytes address junk script h0, addresses_ok address -> script_ok script -> Z.of_nat (length h0) + Z.of_nat (length script) < 2 ^ 32 ->
  exists outs h, play crc_bytes address junk h0 [] script = Done (outs, h) /\ length outs = length script /\
    (forall who, exists first, rolls (rows_of who script) (counted (results_of who script outs)) first /\ last_number (results_of who script outs) = Z.of_nat (length first)) /\
    forall p r, find h0 p = Some r -> find h p = Some r.
Proof. intros crc_bytes address junk script h0 AD OK FEW. exact (streams_call crc_bytes address junk AD script OK h0 FEW). Qed.
Print Assumptions C121_streams_partial.
(** -1 deletes an object and no other. *)
Theorem C121_delete : forall crc_bytes address junk h k p, - 2 ^ 63 <= p < 2 ^ 63 -> p <> 0 -> (exists r, find h p = Some r) ->
  exists h', MultiKeyRollingCall crc_bytes address junk h k (-1) (Some p) = Done (None, h') /\ forall q, q <> p -> find h' q = find h q.
Proof. exact delete_call. Qed.
Print Assumptions C121_delete.
Theorem C121_refused : forall crc_bytes address junk h k hint last, - 2 ^ 63 <= hint < 2 ^ 63 -> (last = None \/ (hint <> -1 /\ exists p, last = Some p /\ - 2 ^ 63 <= p < 2 ^ 63)) ->
  columns_bad (cols_of k) -> MultiKeyRollingCall crc_bytes address junk h k hint last = Error.
Proof.
  intros crc_bytes address junk h k hint last HH HL B. apply roll_refused; [exact HH|exact HL|]. destruct k as [cols|cols]; [now apply tuple_refused|now apply list_refused].
Qed.
Print Assumptions C121_refused.

(** The lowest address above 0 that is free. *)
Fixpoint free_from (fuel : nat) (k : Z) (h : objects) : Z :=
  match fuel with O => k | S fuel => match find h k with None => k | Some _ => free_from fuel (k + 1) h end end.
Definition lowest (h : objects) : Z := free_from (length h) 1 h.
Lemma find_in h p r : find h p = Some r -> In p (map fst h).
Proof. induction h as [|(q, s) h IH]; cbn [find map fst]; [discriminate|]. destruct (Z.eqb_spec q p) as [->|]; [now left|]. intros E. right. now apply IH. Qed.
Lemma free_right h : forall fuel k, k <= free_from fuel k h <= k + Z.of_nat fuel /\
  (find h (free_from fuel k h) = None \/ forall i, k <= i < k + Z.of_nat fuel + 1 -> In i (map fst h)).
Proof.
  induction fuel as [|fuel IH]; intros k; cbn [free_from].
  - split; [lia|]. destruct (find h k) eqn:E; [right|now left]. intros i Hi. assert (i = k) as -> by lia. now apply (find_in h k r).
  - destruct (find h k) eqn:E; [|split; [lia|now left]]. destruct (IH (k + 1)) as (A & B). split; [lia|]. destruct B as [B|B]; [now left|right]. intros i Hi.
    destruct (Z.eq_dec i k) as [->|N]; [now apply (find_in h k r)|apply B; lia].
Qed.
Lemma lowest_ok : addresses_ok lowest.
Proof.
  intros h HL. destruct (free_right h (length h) 1) as (A & B). fold (lowest h) in A, B. change (2 ^ 63) with 9223372036854775808. change (2 ^ 32) with 4294967296 in HL.
  split; [lia|]. split; [lia|]. destruct B as [B|B]; [exact B|]. exfalso.
  assert (N : NoDup (map (fun i => Z.of_nat i + 1) (seq 0 (S (length h))))). { apply FinFun.Injective_map_NoDup; [intros x y E; lia|apply seq_NoDup]. }
  apply NoDup_incl_length with (l' := map fst h) in N; [rewrite !map_length, seq_length in N; lia|]. intros z Hz. apply in_map_iff in Hz as (i & <- & Hi). apply in_seq in Hi. apply B. lia.
Qed.

(** Two streams: bytes in a tuple, and pairs of columns in a list. *)
Definition C121_script : list batch :=
  [{| b_stream := 0; b_rows := 2; b_keys := KeysTuple [bytes 2 1 [[7]; [3]]]; b_hint := 3 |};
   {| b_stream := 1; b_rows := 2; b_keys := KeysList [bytes 2 1 [[7]; [7]]; bytes 18 2 [[65; 66]; [65; 66]]]; b_hint := 0 |};
   {| b_stream := 0; b_rows := 3; b_keys := KeysTuple [bytes 2 1 [[3]; [9]; [7]]]; b_hint := 5 |}].
Example C121_example : script_ok C121_script /\ addresses_ok lowest /\
  match play (fun l => nth 0 l 0) lowest (fun _ => 77) [] [] C121_script with Done (outs, _) => outs | _ => [] end = [([0; 1], [1; 1], 2); ([0; 0], [1; 2], 1); ([1; 2; 0], [2; 1; 2], 3)].
Proof.
  split; [|split; [exact lowest_ok|vm_compute; reflexivity]].
  assert (C : forall d size l, 0 <= d <= 20 -> d <> 11 -> d <> 12 -> forallb (fun x => (Z.of_nat (length x) =? size) && forallb (fun b => (0 <=? b) && (b <? 256)) x) l = true -> column_ok (Z.of_nat (length l)) (bytes d size l)).
  { intros d size l HD N1 N2 F. unfold column_ok, bytes. split; [exact HD|]. split; [contradiction|]. split; [contradiction|]. split.
    { unfold arg_ok. cbn [a_len a_start a_mem a_step]. split; [lia|]. split; [lia|intros; lia]. }
    split; [now right|]. rewrite forallb_forall in F. unfold arg_vals. cbn [a_len a_start a_mem a_step]. apply Forall_forall. intros x Hx. apply in_map_iff in Hx as (i & <- & Hi). apply in_seq in Hi.
    rewrite Nat2Z.id in Hi. match goal with |- item_ok _ ?t => assert (Hin : In t l) end. { apply nth_In. lia. } specialize (F _ Hin). apply andb_true_iff in F as (F1 & F2). split; [lia|].
    rewrite forallb_forall in F2. apply Forall_forall. intros b Hb. specialize (F2 b Hb). lia. }
  split; [|split].
  - intros b [<-|[<-|[<-|[]]]]; cbn [b_rows b_keys b_hint]; (split; [|split; [vm_compute; discriminate|split; [split; [vm_compute; discriminate|vm_compute; reflexivity]|discriminate]]]).
    + split; [|cbn; lia]. split; [lia|]. split; [discriminate|]. split; [constructor; [apply (C 2 1 [[7]; [3]]); try lia; reflexivity|constructor]|exact Logic.I].
    + split; [|exact Logic.I]. split; [lia|]. split; [discriminate|]. split; [constructor; [apply (C 2 1 [[7]; [7]]); try lia; reflexivity|constructor; [apply (C 18 2 [[65; 66]; [65; 66]]); try lia; reflexivity|constructor]]|exact Logic.I].
    + split; [|cbn; lia]. split; [lia|]. split; [discriminate|]. split; [constructor; [apply (C 2 1 [[3]; [9]; [7]]); try lia; reflexivity|constructor]|exact Logic.I].
  - intros b c [<-|[<-|[<-|[]]]] [<-|[<-|[<-|[]]]] E; try discriminate E; reflexivity.
  - intros who b rest E. destruct who as [|[|who]]; cbn in E; injection E as <- _ || discriminate E.
    + split; [cbn; lia|]. exists [[[7]]; [[3]]; [[9]]]. split; [|cbn; lia]. intros x Hx. vm_compute in Hx. vm_compute. tauto.
    + split; [cbn; lia|]. exists [[[7]; [65; 66]]]. split; [|cbn; lia]. intros x Hx. vm_compute in Hx. vm_compute. tauto.
Qed.

(** Three columns in a tuple: the third is taken for a filter and refused. *)
Theorem C121_three_refuted : forall crc_bytes address junk h n cols size a hint, 0 <= n < 68719476731 -> Forall (column_ok n) cols -> nth_error cols 2 = Some (KArray size a) -> a_dtype a <> 0 ->
  - 2 ^ 63 <= hint < 2 ^ 63 -> MultiKeyRollingCall crc_bytes address junk h (KeysTuple cols) hint None = Error.
Proof. intros crc_bytes address junk h n cols size a hint HN HC E N HH. apply roll_refused; [exact HH|now left|]. now apply (third_refused n cols size a). Qed.
Print Assumptions C121_three_refuted.
(** Rows of more than 16 bytes: the new arrays are returned as they are. *)
Theorem C121_wide_refuted : forall crc_bytes address junk n k h hint, keys_ok n k -> 16 < total_size (cols_of k) -> - 2 ^ 63 <= hint < 2 ^ 63 ->
  exists p h', MultiKeyRollingCall crc_bytes address junk h k hint None = Done (Some (map junk (seq 0 (Z.to_nat n)), map junk (seq 0 (Z.to_nat n)), 0, p), h').
Proof. intros crc_bytes address junk. exact (wide_call crc_bytes address junk). Qed.
Print Assumptions C121_wide_refuted.
(** An object that has been deleted. *)
Theorem C121_deleted_refuted : forall crc_bytes address junk h n k hint p, keys_ok n k -> - 2 ^ 63 <= hint < 2 ^ 63 -> - 2 ^ 63 <= p < 2 ^ 63 -> p <> 0 -> find h p = None ->
  MultiKeyRollingCall crc_bytes address junk h k hint (Some p) = Undefined.
Proof.
  intros crc_bytes address junk h n k hint p HK HH HP N F. destruct (keys_prepared n k HK) as (core & EP). unfold MultiKeyRollingCall.
  assert (int64_ok hint = true) as -> by (unfold int64_ok; now rewrite (proj2 (Z.leb_le _ _)), (proj2 (Z.ltb_lt _ _)) by lia).
  assert (int64_ok p = true) as -> by (unfold int64_ok; now rewrite (proj2 (Z.leb_le _ _)), (proj2 (Z.ltb_lt _ _)) by lia). cbn [andb negb].
  destruct (hint =? -1); rewrite ?(proj2 (Z.eqb_neq _ _) N), ?EP, ?F; reflexivity.
Qed.
Print Assumptions C121_deleted_refuted.
