(** Proofs about the arguments of the MultiKey functions: the rows made of the columns. *)
From Verif Require Import Base Mem MemLemmas AllModel All3Proofs EaModel EaSpec Ea2Proofs BnModel Bn2Proofs MkModel MkSpec.
From Verif Require Par HashModel HashSpec HashProofs.
Local Open Scope Z_scope.

(** ** Items and rows as numbers and bytes *)
Lemma number_range size x : item_ok size x -> 0 <= number x < 2 ^ (8 * size).
Proof.
  intros (<- & F). induction x as [|b r IH]; [cbn; lia|]. inversion F as [|? ? Hb Fr]; subst. specialize (IH Fr). cbn [number length].
  replace (8 * Z.of_nat (S (length r))) with (8 + 8 * Z.of_nat (length r)) by lia. rewrite Z.pow_add_r by lia. change (2 ^ 8) with 256. lia.
Qed.
Lemma number_inj size : forall x y, item_ok size x -> item_ok size y -> number x = number y -> x = y.
Proof.
  intros x. revert size. induction x as [|b r IH]; intros size [|c t] (L1 & F1) (L2 & F2) E; cbn [length] in *; try lia; [reflexivity|].
  inversion F1 as [|? ? Hb Fr]; inversion F2 as [|? ? Hc Ft]; subst. cbn [number] in E.
  assert (b = c) as -> by lia. f_equal. apply (IH (Z.of_nat (length r))); [now split| |lia]. split; [lia|exact Ft].
Qed.
Lemma app_eq_len {X} : forall (a b c d : list X), length a = length c -> a ++ b = c ++ d -> a = c /\ b = d.
Proof.
  induction a as [|x a IH]; intros b [|y c] d L E; try discriminate; [now split|]. injection L as L. injection E as -> E. destruct (IH b c d L E) as (-> & ->). now split.
Qed.
Lemma concat_inj {X} : forall (r1 r2 : list (list X)), Forall2 (fun x y => length x = length y) r1 r2 -> concat r1 = concat r2 -> r1 = r2.
Proof.
  induction 1 as [|x y r1 r2 L F IH]; intros E; [reflexivity|]. cbn [concat] in E. apply app_eq_len in E as (-> & E); [|exact L]. f_equal. now apply IH.
Qed.

(** ** The columns *)
Section Columns.
  Context (n : Z) (cols : list key_column) (filter : param bool) (OK : call_ok n cols filter).

  Lemma column_read c : column_ok n c -> exists d, read_column c = Done {| i_object := true; i_dtype := d; i_size := size_of c; i_items := items c |} /\
    (d = 11 -> size_of c = 4) /\ (d = 12 -> size_of c = 8) /\ length (items c) = Z.to_nat n.
  Proof using OK.
    destruct OK as (HN & _). destruct c as [|size a|]; cbn [column_ok]; try contradiction. intros (HD & H11 & H12 & HA & H1 & HI). exists (a_dtype a).
    cbn [read_column items size_of]. unfold known_type. rewrite (proj2 (Z.leb_le 0 _)), (proj2 (Z.leb_le _ 20)) by lia. cbn [andb].
    rewrite (mlp_right [] n a) by (try lia; assumption). cbn [obind]. split; [reflexivity|]. split; [exact H11|]. split; [exact H12|]. exact (arg_vals_length [] n a HA).
  Qed.
  Lemma columns_read : exists infos, each read_column cols = Done infos /\ map i_items infos = map items cols /\ map i_size infos = map size_of cols /\
    Forall (fun i => i_object i = true /\ (i_dtype i = 11 -> i_size i = 4) /\ (i_dtype i = 12 -> i_size i = 8) /\ length (i_items i) = Z.to_nat n) infos.
  Proof using OK.
    pose proof column_read as CR. destruct OK as (_ & _ & HC & _). clear OK.
    induction cols as [|c l IH]; [exists []; repeat split; constructor|]. inversion HC as [|? ? Hc Hl]; subst.
    destruct (CR c Hc) as (d & E & H11 & H12 & L). destruct (IH Hl) as (is & Es & E1 & E2 & F). eexists. cbn [each]. rewrite E. cbn [obind]. rewrite Es. cbn [obind].
    split; [reflexivity|]. cbn [map i_items i_size]. rewrite E1, E2. repeat split. constructor; [|exact F]. cbn. auto.
  Qed.

  Lemma filter_read : filter <> POther /\ read_filter n filter = Done (mask_vals filter) /\ forall f, mask_vals filter = Some f -> length f = Z.to_nat n.
  Proof using OK.
    destruct OK as (HN & _ & _ & HM). destruct filter as [|a|]; cbn [mask_given] in HM; [split; [discriminate|]; split; [reflexivity|discriminate]| |contradiction].
    destruct HM as (HD & HA & HG). split; [discriminate|]. cbn [read_filter mask_vals]. rewrite HD, (proj1 HA), !Z.eqb_refl. cbn [andb].
    rewrite (read_arg_right false n a) by (try lia; assumption). split; [reflexivity|]. intros f [= <-]. exact (arg_vals_length false n a HA).
  Qed.

  Lemma row_of_right : forall l i, Forall (fun c => (i < length c)%nat) l -> HashModel.row_of l i = Some (concat (map (fun c => nth i c []) l)).
  Proof using.
    induction l as [|c l IH]; intros i F; [reflexivity|]. inversion F as [|? ? Hc Fl]; subst. cbn [HashModel.row_of map concat].
    rewrite (nth_error_nth' c [] Hc), IH by exact Fl. reflexivity.
  Qed.
  Lemma rotate_right l k : Forall (fun c => length c = k) l -> HashModel.RotateArrays l k = Some (map (fun i => concat (map (fun c => nth i c []) l)) (seq 0 k)).
  Proof using.
    intros F. unfold HashModel.RotateArrays. apply Par.all_some_map. intros i Hi. apply in_seq in Hi. apply row_of_right. rewrite Forall_forall in *. intros c Hc. rewrite (F c Hc). lia.
  Qed.

  Definition flat (i : nat) : list Z := concat (row_at cols i).
  Lemma prepare_right : exists core, prepare cols filter = Done {| p_rows := map flat (seq 0 (Z.to_nat n)); p_width := total_size cols; p_core := core; p_filter := mask_vals filter; p_object := true |} /\
    (core = 11 -> total_size cols = 4) /\ (core = 12 -> total_size cols = 8).
  Proof using OK.
    destruct columns_read as (infos & E & E1 & E2 & F). destruct filter_read as (NO & RF & _).
    assert (EF : forall i, row_at cols i = map (fun c => nth i c []) (map items cols)) by (intros i; unfold row_at; now rewrite map_map).
    unfold prepare. destruct OK as (HN & NE & _ & _).
    replace (match filter with POther => Error | _ => obind (each read_column cols) _ end) with (obind (each read_column cols) (fun infos =>
      match infos with
      | [] => Undefined
      | first :: rest =>
          let n := length (i_items first) in
          if negb (forallb (fun i => Nat.eqb (length (i_items i)) n) rest) then Error
          else obind (read_filter (Z.of_nat n) filter) (fun f =>
               match rest with
               | [] => if i_object first
                       then Done {| p_rows := i_items first; p_width := i_size first; p_core := i_dtype first; p_filter := f; p_object := true |}
                       else Undefined
               | _ => obind (undef (HashModel.RotateArrays (map i_items infos) n)) (fun rows =>
                      Done {| p_rows := rows; p_width := fold_right Z.add 0 (map i_size infos); p_core := -1; p_filter := f; p_object := i_object first |})
               end)
      end)) by (destruct filter; [reflexivity|reflexivity|now elim NO]).
    rewrite E. cbn [obind]. destruct infos as [|first rest]; [destruct cols; [now elim NE|discriminate]|].
    cbv zeta. inversion F as [|? ? (HO & H11 & H12 & HL) Fr]; subst. rewrite HL.
    assert (forallb (fun i => Nat.eqb (length (i_items i)) (Z.to_nat n)) rest = true) as ->.
    { apply forallb_forall. intros i Hi. apply Nat.eqb_eq. rewrite Forall_forall in Fr. apply (Fr i Hi). }
    cbn [negb]. rewrite Z2Nat.id by lia. rewrite RF. cbn [obind]. destruct rest as [|i2 rest].
    - rewrite HO. exists (i_dtype first). destruct cols as [|c [|c2 l]] eqn:EC; try discriminate. cbn [map] in E1, E2. injection E1 as E1. injection E2 as E2.
      unfold total_size. cbn [map fold_right]. rewrite <- E2, Z.add_0_r. split; [|now split]. repeat f_equal.
      rewrite E1. rewrite E1 in HL. apply (nth_ext _ _ [] []).
      + rewrite map_length, seq_length. exact HL.
      + intros i Hi. rewrite HL in Hi. rewrite (nth_indep (map flat _) [] (flat 0)) by (rewrite map_length, seq_length; exact Hi). rewrite map_nth, seq_nth by exact Hi. cbn [Nat.add].
        unfold flat, row_at. rewrite EC. cbn [map concat]. now rewrite app_nil_r.
    - rewrite E1. rewrite (rotate_right (map items cols) (Z.to_nat n)).
      + cbn [undef obind]. rewrite HO. exists (-1). split; [|split; discriminate]. unfold total_size. rewrite E2.
        rewrite (map_ext flat (fun i => concat (map (fun c => nth i c []) (map items cols)))); [reflexivity|]. intros i. unfold flat. now rewrite EF.
      + rewrite <- E1. apply Forall_map. eapply Forall_impl; [|exact F]. cbn. tauto.
  Qed.

  Lemma rows_length : length (map flat (seq 0 (Z.to_nat n))) = Z.to_nat n.
  Proof using. now rewrite map_length, seq_length. Qed.
  Lemma with_filter_right {K} (g : nat -> K) : HashModel.with_filter (map g (seq 0 (Z.to_nat n))) (mask_vals filter) = map (fun i => (g i, keep_at filter i)) (seq 0 (Z.to_nat n)).
  Proof using OK.
    destruct filter_read as (_ & _ & HL). destruct filter as [|a|]; cbn [mask_vals HashModel.with_filter keep_at] in *; try (now rewrite map_map).
    specialize (HL _ eq_refl). rewrite <- HL. clear. revert g. induction (arg_vals false a) as [|b l IH]; intros g; [reflexivity|].
    cbn [length seq map combine nth]. f_equal. rewrite <- !seq_shift, !map_map. apply IH.
  Qed.

  (** the rows one by one *)
  Lemma flat_item i : (i < Z.to_nat n)%nat -> item_ok (total_size cols) (flat i).
  Proof using OK.
    destruct OK as (_ & _ & HC & _). clear OK. intros Hi. unfold flat, row_at, total_size. induction cols as [|c l IH]; [split; [reflexivity|constructor]|].
    inversion HC as [|? ? Hc Hl]; subst. cbn [map concat fold_right]. destruct (IH Hl) as (L & F). destruct c as [|size a|]; cbn [column_ok] in Hc; try contradiction.
    destruct Hc as (_ & _ & _ & HA & _ & HI). assert (item_ok size (nth i (arg_vals [] a) [])) as (L1 & F1).
    { rewrite Forall_forall in HI. apply HI, nth_In. rewrite (arg_vals_length [] n a HA). exact Hi. }
    cbn [items size_of]. split; [rewrite app_length; lia|]. apply Forall_app. now split.
  Qed.
  Lemma flat_inj i j : (i < Z.to_nat n)%nat -> (j < Z.to_nat n)%nat -> flat i = flat j -> row_at cols i = row_at cols j.
  Proof using OK.
    destruct OK as (_ & _ & HC & _). clear OK. intros Hi Hj. apply concat_inj. unfold row_at. induction cols as [|c l IH]; [constructor|].
    inversion HC as [|? ? Hc Hl]; subst. cbn [map]. constructor; [|exact (IH Hl)]. destruct c as [|size a|]; cbn [column_ok] in Hc; try contradiction.
    destruct Hc as (_ & _ & _ & HA & _ & HI). cbn [items]. rewrite Forall_forall in HI.
    assert (forall k, (k < Z.to_nat n)%nat -> Z.of_nat (length (nth k (arg_vals [] a) [])) = size) as Q.
    { intros k Hk. apply HI, nth_In. rewrite (arg_vals_length [] n a HA). exact Hk. }
    apply Nat2Z.inj. now rewrite (Q i Hi), (Q j Hj).
  Qed.
End Columns.
