(** Proofs about GroupByAll32: from the arguments to the results. *)
From Verif Require Import Base Mem MemLemmas Inter AccumModel AccumSpec AccumProofs Accum3Proofs VarModel VarSpec AllModel AllSpec AllProofs All2Proofs.
Local Open Scope Z_scope.

Lemma each_exists {X Y} (f : X -> outcome Y) (P : X -> Y -> Prop) l :
  (forall x, In x l -> exists y, f x = Done y /\ P x y) -> exists ys, each f l = Done ys /\ Forall2 P l ys.
Proof.
  induction l as [|x l IH]; intros H; [exists []; split; [reflexivity|constructor]|].
  destruct (H x) as (y & E & Py); [now left|]. destruct IH as (ys & Es & Ps); [intros; apply H; now right|].
  exists (y :: ys). cbn [each]. rewrite E. cbn [obind]. rewrite Es. split; [reflexivity|now constructor].
Qed.
Lemma each_forall2 {W X Y} (f : X -> outcome Y) (P : W -> X -> Prop) (Q : W -> Y -> Prop) ws l :
  Forall2 P ws l -> (forall w x, In w ws -> P w x -> exists y, f x = Done y /\ Q w y) -> exists ys, each f l = Done ys /\ Forall2 Q ws ys.
Proof.
  induction 1 as [|w x ws l Pw _ IH]; intros H; [exists []; split; [reflexivity|constructor]|].
  destruct (H w x) as (y & E & Qy); [now left|exact Pw|]. destruct IH as (ys & Es & Ps); [intros; eapply H; [now right|eassumption]|].
  exists (y :: ys). cbn [each]. rewrite E. cbn [obind]. rewrite Es. split; [reflexivity|now constructor].
Qed.
Lemma each_map {X Y} (f : X -> outcome Y) (g : X -> Y) l : (forall x, In x l -> f x = Done (g x)) -> each f l = Done (map g l).
Proof.
  induction l as [|x l IH]; intros H; [reflexivity|]. cbn [each map]. rewrite H by now left. cbn [obind]. rewrite IH; [reflexivity|]. intros. apply H. now right.
Qed.
Lemma forall2_snd {X Y W} (Q : X -> Y -> Prop) : forall (l : list (W * X)) ys, Forall2 (fun p y => Q (snd p) y) l ys -> Forall2 Q (map snd l) ys.
Proof. induction 1; constructor; auto. Qed.
Lemma map_snd_combine {X Y} : forall (a : list X) (b : list Y), length a = length b -> map snd (combine a b) = b.
Proof. induction a as [|x a IH]; intros [|y b] H; try discriminate H; [reflexivity|]. cbn. f_equal. apply IH. now injection H. Qed.
Lemma combine_map_r {X Y W} (f : Y -> W) : forall (a : list X) (b : list Y), combine a (map f b) = map (fun p => (fst p, f (snd p))) (combine a b).
Proof. induction a as [|x a IH]; intros [|y b]; cbn; auto. now rewrite IH. Qed.
Lemma in_combine_seq {X} (l : list X) : forall s i x, In (i, x) (combine (seq s (length l)) l) -> exists j, i = (s + j)%nat /\ nth_error l j = Some x.
Proof.
  induction l as [|y l IH]; intros s i x H; [destruct H|]. cbn in H. destruct H as [[= <- <-] | H]; [exists 0%nat; split; [lia|reflexivity]|].
  destruct (IH (S s) i x H) as (j & -> & N). exists (S j). split; [lia|exact N].
Qed.
Lemma map_nth_all {X} (l : list X) d : map (fun i => nth i l d) (seq 0 (length l)) = l.
Proof.
  induction l as [|x l IH]; [reflexivity|]. cbn [length seq map nth]. f_equal. rewrite <- seq_shift, map_map. exact IH.
Qed.

Lemma as_int64_id z : - 2 ^ 63 <= z < 2 ^ 63 -> as_int64 z = z.
Proof. intros H. unfold as_int64. rewrite (proj2 (Z.leb_le _ _)), (proj2 (Z.ltb_lt _ _)) by lia. reflexivity. Qed.
Lemma as_func_id z : In z functions -> as_func z = z.
Proof. cbn [functions In]. intros H. each_func H; reflexivity. Qed.

Section Calls.
  Context {F : Type} (A : arith F).

  Lemma read_key_right (key : keyarg) : key_ok key -> k_step key = 1 \/ k_len key <= 1 -> read_key key = Some (key_vals key).
  Proof.
    intros (_ & _ & HL & HS & HI) HC. unfold read_key, key_vals.
    assert (E : k_start key + k_len key <= Z.of_nat (length (k_mem key))).
    { destruct (Z.eq_dec (k_len key) 0) as [-> |N]; [lia|]. destruct HC as [C | C]; [|specialize (HI 0); lia].
      specialize (HI (k_len key - 1)). rewrite C in HI. lia. }
    rewrite (proj2 (Z.leb_le _ _)), (proj2 (Z.leb_le _ _)) by lia. cbn [andb]. f_equal.
    apply nth_ext with (d := 0) (d' := 0).
    - rewrite firstn_length, skipn_length, map_length, seq_length. lia.
    - intros i Hi. rewrite firstn_length, skipn_length in Hi.
      set (g := fun i : nat => _). replace (nth i (map g _) 0) with (g i).
      2:{ symmetry. rewrite nth_indep with (d' := g 0%nat) by (rewrite map_length, seq_length; lia). rewrite (map_nth g), seq_nth by lia. reflexivity. }
      unfold g. clear g. rewrite <- (firstn_skipn (Z.to_nat (k_len key)) (skipn (Z.to_nat (k_start key)) (k_mem key))) at 2 || idtac.
      assert (P : k_start key + Z.of_nat i * k_step key = k_start key + Z.of_nat i).
      { destruct HC as [-> | C]; [lia|]. replace i with 0%nat by lia. lia. }
      rewrite P. replace (Z.to_nat (k_start key + Z.of_nat i)) with (Z.to_nat (k_start key) + i)%nat by lia.
      assert (G : forall (l : list Z) a n j, (j < n)%nat -> nth j (firstn n (skipn a l)) 0 = nth (a + j) l 0).
      { clear. intros l a n j Hj. revert a n j Hj. induction l as [|x l IH]; intros a n j Hj.
        - rewrite skipn_nil, firstn_nil. now destruct j, (a + _)%nat.
        - destruct a as [|a]; [|cbn [skipn Nat.add nth]; now apply IH].
          cbn [skipn Nat.add]. destruct n as [|n]; [lia|]. destruct j as [|j]; [reflexivity|]. cbn [firstn nth]. apply (IH 0%nat n j). lia. }
      apply G. lia.
  Qed.
  Lemma key_vals_length (key : keyarg) : 0 <= k_len key -> Z.of_nat (length (key_vals key)) = k_len key.
  Proof. intros. unfold key_vals. rewrite map_length, seq_length. lia. Qed.

  Lemma new_array_length (m : machine F) id n : 0 <= n -> Z.of_nat (length (new_array m id n)) = n.
  Proof. intros. unfold new_array. rewrite !map_length, seq_length. lia. Qed.

  Definition inf (q : query (F := F)) : info (F := F) := mkInfo (c_dtype (q_col q)) (c_vals (q_col q)).

  Lemma build_right n unique (qs : list (query (F := F))) : Forall (query_ok n unique) qs -> BuildArrayInfo (map (fun q => OArray (q_col q)) qs) = Done (map inf qs).
  Proof.
    intros H. rewrite Forall_forall in H. unfold BuildArrayInfo.
    assert (E : each build_one (map (fun q => OArray (q_col q)) qs) = Done (map inf qs)).
    { clear - H. induction qs as [|q qs IH]; [reflexivity|]. cbn [map each].
      assert (B : build_one (OArray (q_col q)) = Done (inf q)).
      { destruct (H q (or_introl eq_refl)) as ((C1 & C2 & C3 & C4 & _) & _). cbn [build_one]. rewrite C1. change (1 =? 1) with true. change (1 =? 0) with false. cbn [negb andb].
        rewrite (proj2 (Z.eqb_neq (c_dtype (q_col q)) (-1))) by lia.
        destruct (Z.leb_spec (Z.of_nat (length (c_vals (q_col q)))) 1); [|rewrite Z.eqb_refl; reflexivity].
        destruct (Z.ltb_spec 0 (Z.of_nat (length (c_vals (q_col q))))); [|rewrite andb_false_r; reflexivity].
        rewrite C4, Z.eqb_refl by lia. reflexivity. }
      rewrite B. cbn [obind]. rewrite IH; [reflexivity|]. intros. apply H. now right. }
    rewrite E. cbn [obind].
    replace (forallb _ (map inf qs)) with true; [reflexivity|]. symmetry. apply forallb_forall. intros i Hi. apply in_map_iff in Hi as (q & <- & Hq).
    destruct qs as [|q0 qs]; [destruct Hq|]. cbn [map hd inf i_vals]. apply Nat.eqb_eq.
    destruct (H q Hq) as ((_ & _ & L & _) & _), (H q0 (or_introl eq_refl)) as ((_ & _ & L' & _) & _). lia.
  Qed.

  Context (AO : arith_ok A) (m : machine F) (key : keyarg) (unique : Z) (KO : key_ok key) (KC : k_step key = 1 \/ k_len key <= 1)
          (RO : (unique + 1) * 10 < 2 ^ 63).

  Lemma rows_bool (q : query (F := F)) : query_ok (k_len key) unique q -> c_dtype (q_col q) = 0 ->
    forall k v, In (k, v) (combine (key_vals key) (c_vals (q_col q))) -> v = I 0 \/ v = I 1.
  Proof. clear AO KO KC RO. intros ((_ & _ & _ & _ & C) & _) D k v H. apply (C D). eapply in_combine_r; eauto. Qed.
  Lemma rows_length (q : query (F := F)) : query_ok (k_len key) unique q -> Z.of_nat (length (combine (key_vals key) (c_vals (q_col q)))) = k_len key.
  Proof. clear AO KC RO. intros ((_ & _ & L & _) & _). destruct KO as (_ & _ & HL & _). pose proof (key_vals_length key HL). rewrite combine_length. lia. Qed.

  Definition prepared (iq : nat * query (F := F)) (t : task (F := F)) : Prop :=
    exists T U counts tmp, t = mkTask (inf (snd iq)) (mkFound (mkK (kname_for (q_func (snd iq)) (c_dtype (q_col (snd iq)))) T U) (out_dtype (q_func (snd iq)) (c_dtype (q_col (snd iq)))) counts tmp)
        (q_low (snd iq)) (q_high (snd iq)) (fst iq) /\
      stored (c_dtype (q_col (snd iq))) = Some T /\ stored (out_dtype (q_func (snd iq)) (c_dtype (q_col (snd iq)))) = Some U /\
      (uses_counts (kname_for (q_func (snd iq)) (c_dtype (q_col (snd iq)))) = true -> counts = true) /\
      (uses_tmp (kname_for (q_func (snd iq)) (c_dtype (q_col (snd iq)))) T = true -> tmp = true).

  Lemma prepare_right qs i (q : query (F := F)) : nth_error qs i = Some q -> query_ok (k_len key) unique q ->
    exists t, prepare (unique + 1) (map q_func qs) (map q_low qs) (map q_high qs) (i, inf q) = Done t /\ prepared (i, q) t.
  Proof.
    clear AO KO KC. intros N ((C1 & C2 & C3 & C4 & C5) & HF & HR & HH). unfold prepare. cbn [fst snd]. rewrite !(map_nth_error _ _ _ N). rewrite as_func_id by exact HF. cbn [inf i_dtype].
    destruct (table_right (q_func q) (c_dtype (q_col q)) HF C2) as (T & U & counts & tmp & E & HT & HU & HC & _ & HP & _). rewrite E. cbn [f_tmp].
    rewrite (proj2 (Z.ltb_ge (unique + 1) 0)) by lia. rewrite !as_int64_id by lia. rewrite (proj2 (Z.ltb_ge (q_high q - q_low q) 0)) by lia. rewrite andb_false_r.
    eexists. split; [reflexivity|]. exists T, U, counts, tmp. cbn [fst snd]. auto.
  Qed.

  Lemma group_call_right i (q : query (F := F)) t : query_ok (k_len key) unique q -> prepared (i, q) t ->
    (q_func q = 50 -> c_dtype (q_col q) = 11 -> q_low q = 0 \/ q_high q - q_low q < k_len key) ->
    exists r, group_by_call A m (unique + 1) (key_vals key) t = Done r /\ answers A unique key q r.
  Proof.
    clear RO KC. intros Q (T & U & counts & tmp & -> & HT & HU & HC & HP) G. cbn [fst snd] in *. pose proof (rows_length q Q) as L. pose proof (rows_bool q Q) as B.
    destruct Q as (CO & HF & HR & HH). unfold group_by_call. cbn [t_func t_info t_low t_high t_id f_kernel f_out f_counts f_tmp inf i_dtype i_vals k_T k_U].
    rewrite (typed_refl _ _ HT), (typed_refl _ _ HU). cbn [negb orb].
    destruct (call_right A AO (q_func q) (c_dtype (q_col q)) T U counts tmp (q_low q) (q_high q) (combine (key_vals key) (c_vals (q_col q)))
      (new_array m (3 * i) (unique + 1)) (new_array m (3 * i + 1) (unique + 1)) (new_array m (3 * i + 2) (unique + 1))) as (r & E & Lr & S); auto.
    - rewrite new_array_length; lia.
    - unfold new_array. now rewrite !map_length.
    - unfold new_array. now rewrite !map_length.
    - intros. rewrite L. auto.
    - rewrite E. cbn [undef obind]. eexists. split; [reflexivity|]. split; [reflexivity|]. cbn [snd]. split; [|exact S]. rewrite Lr, new_array_length; lia.
  Qed.

  Lemma single_right (q : query (F := F)) : machine_ok m (k_len key) -> query_ok (k_len key) unique q -> m_item m = true -> scatters (q_func q) = true ->
    (floating (out_dtype (q_func q) (c_dtype (q_col q))) = true -> In (q_func q) [0; 1; 50; 51] -> arith_exact A) ->
    (c_dtype (q_col q) = 11 -> In (q_func q) [50; 51] -> q_low q = 0) ->
    exists r, single_op A m (inf q) key (q_func q) (unique + 1) (q_low q) (q_high q) = Done (Some [r]) /\ answers A unique key q r.
  Proof.
    clear RO. intros (M1 & M2 & M3) Q MI HS HX HL. pose proof (rows_length q Q) as L. pose proof (rows_bool q Q) as B. destruct Q as ((C1 & C2 & C3 & C4 & C5) & HF & HR & HH).
    unfold single_op. cbn [inf i_dtype i_vals].
    destruct (table_right (q_func q) (c_dtype (q_col q)) HF C2) as (T & U & counts & tmp & E & HT & HU & HC & HG & HP & GT). rewrite E, MI. cbn [negb].
    rewrite (proj2 (Z.ltb_ge (unique + 1) 0)) by lia. rewrite (read_key_right key KO KC). cbn [undef obind f_kernel f_out f_counts f_tmp k_T k_U k_name].
    rewrite (GT HS), (typed_refl _ _ HT), (typed_refl _ _ HU).
    rewrite (proj2 (Z.ltb_ge (q_high q) (q_low q))) by lia. cbn [negb orb].
    replace ((uses_counts (kname_for (q_func q) (c_dtype (q_col q))) || gather_counts (q_func q)) && negb counts) with false.
    2:{ symmetry. destruct (uses_counts _); [rewrite HC by reflexivity|]; [reflexivity|]. destruct (gather_counts _); [rewrite HG by reflexivity|]; reflexivity. }
    replace (uses_tmp (kname_for (q_func q) (c_dtype (q_col q))) T && negb tmp) with false.
    2:{ symmetry. destruct (uses_tmp _ _); [rewrite HP by reflexivity|]; reflexivity. }
    cbn [orb]. set (rows := combine (key_vals key) (c_vals (q_col q))) in *.
    set (asg := map (map (fun b : nat => nth b (cut (m_chunk m) rows) [])) (m_cores m)).
    set (junks := map (fun c => new_array m (S c) (unique + 1)) (seq 0 (length (m_cores m)))).
    set (djunks := map (fun c => combine (new_array m (S c) (unique + 1)) (new_array m (S c + length (m_cores m)) (unique + 1))) (seq 0 (length (m_cores m)))).
    assert (NL : forall id, length (new_array m id (unique + 1)) = length (new_array m 0 (unique + 1))) by (intros; unfold new_array; now rewrite !map_length).
    destruct (scatter_right A AO (q_low q) (q_high q) (m_chunk m) rows asg junks djunks (new_array m 0 (unique + 1))) with (func := q_func q) (d := c_dtype (q_col q)) (T := T) (U := U)
      as (r & Er & Lr & S); auto.
    - unfold assigned, asg. rewrite <- concat_map. change (row_blocks (m_chunk m) rows) with (cut (m_chunk m) rows).
      etransitivity; [apply Permutation_map, M3|]. replace (length (chunks (m_chunk m) (Z.to_nat (k_len key)))) with (length (cut (m_chunk m) rows)).
      + rewrite map_nth_all. reflexivity.
      + unfold cut. rewrite map_length. do 2 f_equal. lia.
    - unfold asg. destruct (m_cores m); [contradiction|discriminate].
    - unfold junks, asg. now rewrite !map_length, seq_length.
    - unfold djunks, asg. now rewrite !map_length, seq_length.
    - rewrite new_array_length; lia.
    - apply Forall_forall. intros j Hj. apply in_map_iff in Hj as (c & <- & _). apply NL.
    - apply Forall_forall. intros j Hj. apply in_map_iff in Hj as (c & <- & _). rewrite combine_length, (NL (S c)), (NL (S c + length (m_cores m))%nat). apply Nat.min_id.
    - unfold scatter_kernel in Er. destruct (gather_fun_of A (q_func q) U) as [g|]; [|discriminate Er].
      exists (out_dtype (q_func q) (c_dtype (q_col q)), r). split.
      + destruct (acc_fun_of A _ T U) as [a|]; [rewrite Er; reflexivity|]. destruct (tmp_fun_of A _ T U) as [t|]; [rewrite Er; reflexivity|discriminate Er].
      + split; [reflexivity|]. cbn [snd]. split; [|exact S]. rewrite Lr, new_array_length; lia.
  Qed.

  Theorem groups_right (qs : list (query (F := F))) : machine_ok m (k_len key) -> qs <> [] -> Forall (query_ok (k_len key) unique) qs ->
    (forall q, In q qs -> q_func q = 50 -> c_dtype (q_col q) = 11 -> q_low q = 0 \/ q_high q - q_low q < k_len key) ->
    (scattered_call m qs key unique -> forall q, In q qs ->
      (floating (out_dtype (q_func q) (c_dtype (q_col q))) = true -> In (q_func q) [0; 1; 50; 51] -> arith_exact A) /\
      (c_dtype (q_col q) = 11 -> In (q_func q) [50; 51] -> q_low q = 0)) ->
    exists res, GroupBy A m qs key unique = Done res /\ Forall2 (answers A unique key) qs res.
  Proof.
    intros MO NE QO G1 G2. assert (QO' := QO). rewrite Forall_forall in QO'. unfold GroupBy, GroupByAll32.
    assert (KD : k_dims key = 1 /\ In (k_dtype key) [1; 3; 5; 7; 9]) by (destruct KO as (K1 & K2 & _); auto). destruct KD as (K1 & K2).
    rewrite K1. change (1 =? 1) with true. cbn [negb].
    replace (existsb (Z.eqb (k_dtype key)) [1; 3; 5; 7; 9]) with true by (symmetry; apply existsb_exists; exists (k_dtype key); split; [exact K2|apply Z.eqb_refl]).
    cbn [negb]. rewrite (build_right _ _ _ QO). cbn [obind]. rewrite !map_length, Nat.eqb_refl. cbn [negb].
    assert (REST : exists res, obind (each (prepare (unique + 1) (map q_func qs) (map q_low qs) (map q_high qs)) (combine (seq 0 (length qs)) (map inf qs))) (fun ts =>
        obind (undef (read_key key)) (fun ks => each (group_by_call A m (unique + 1) ks) ts)) = Done res /\ Forall2 (answers A unique key) qs res).
    { rewrite combine_map_r.
      assert (IQ : forall iq, In iq (combine (seq 0 (length qs)) qs) -> nth_error qs (fst iq) = Some (snd iq)).
      { intros [i q] H. apply in_combine_seq in H as (j & -> & N). exact N. }
      destruct (each_exists (fun iq => prepare (unique + 1) (map q_func qs) (map q_low qs) (map q_high qs) (fst iq, inf (snd iq))) prepared (combine (seq 0 (length qs)) qs)) as (ts & E & P).
      { intros [i q] H. pose proof (IQ _ H) as N. cbn [fst snd] in *. apply prepare_right; [exact N|]. apply QO'. eapply nth_error_In; eauto. }
      replace (each (prepare _ _ _ _) (map _ _)) with (@Done (list (task (F := F))) ts).
      2:{ rewrite <- E. generalize (combine (seq 0 (length qs)) qs). intros l. induction l as [|x l IH]; [reflexivity|]. cbn [map each]. now rewrite IH. }
      cbn [obind]. rewrite (read_key_right key KO KC). cbn [undef obind].
      destruct (each_forall2 (group_by_call A m (unique + 1) (key_vals key)) prepared (fun iq r => answers A unique key (snd iq) r) _ _ P) as (res & Er & Pr).
      { intros [i q] t H Pt. pose proof (IQ _ H) as N. cbn [fst snd] in *. apply nth_error_In in N. apply (group_call_right i q t); auto. }
      exists res. split; [exact Er|]. apply forall2_snd in Pr. rewrite map_snd_combine in Pr by apply seq_length. exact Pr. }
    revert REST. set (R := obind (each _ _) _). intros REST.
    destruct qs as [|q qs]; [contradiction|]. cbn [map] in *. cbn [inf i_vals].
    pose proof (QO' q (or_introl eq_refl)) as Q. assert (Q' := Q). destruct Q' as ((C1 & C2 & C3 & C4 & C5) & HF & HR & HH).
    rewrite C3, Z.eqb_refl. cbn [negb]. rewrite (proj2 (Z.leb_le (- 2 ^ 63) _)), (proj2 (Z.ltb_lt _ (2 ^ 63))) by lia. cbn [andb negb hd].
    rewrite (as_func_id _ HF). fold (inf q). destruct qs as [|q' qs]; [|cbn [map]; cbn [obind]; exact REST]. cbn [map].
    destruct (Z.ltb_spec ((unique + 1) * 10) (k_len key)) as [S | S]; [|cbn [obind]; exact REST].
    destruct (scatters (q_func q)) eqn:SC; [|cbn [obind]; exact REST].
    rewrite !as_int64_id by lia. destruct (m_item m) eqn:MI.
    - assert (SCA : scattered_call m [q] key unique) by (split; [exact MI|split; [exact S|exists q; auto]]).
      destruct (G2 SCA q (or_introl eq_refl)) as (X1 & X2). destruct (single_right q MO Q MI SC X1 X2) as (r & E & An).
      rewrite E. cbn [obind]. exists [r]. split; [reflexivity|]. constructor; [exact An|constructor].
    - assert (E : single_op A m (inf q) key (q_func q) (unique + 1) (q_low q) (q_high q) = Done None).
      { unfold single_op. destruct (GetGroupByFunction _ _); [|reflexivity]. rewrite MI. reflexivity. }
      rewrite E. cbn [obind]. exact REST.
  Qed.
End Calls.
