(** Proofs about GroupByAll32: the arguments that are refused. *)
From Verif Require Import Base Mem MemLemmas AccumModel AccumSpec AccumProofs VarModel VarSpec AllModel AllSpec AllProofs All2Proofs All3Proofs.
Local Open Scope Z_scope.

Section Errors.
  Context {F : Type} (A : arith F) (m : machine F).
  Notation call := (GroupByAll32 A m).

  Lemma bad_dims cols key unique funcs lows highs : k_dims key <> 1 -> call cols key unique funcs lows highs = Error.
  Proof. intros H. unfold GroupByAll32. rewrite (proj2 (Z.eqb_neq _ _) H). reflexivity. Qed.
  Lemma bad_type cols key unique funcs lows highs : ~ In (k_dtype key) [1; 3; 5; 7; 9] -> call cols key unique funcs lows highs = Error.
  Proof.
    intros H. unfold GroupByAll32. destruct (k_dims key =? 1); [|reflexivity]. cbn [negb].
    replace (existsb _ _) with false; [reflexivity|]. symmetry. apply not_true_iff_false. intros E. apply existsb_exists in E as (x & Hx & E). apply Z.eqb_eq in E. subst x. auto.
  Qed.
  Lemma build_shaped n (c : column F) : shaped n c -> build_one (OArray c) = Done (mkInfo (c_dtype c) (c_vals c)).
  Proof.
    intros (C1 & C2 & C3 & C4). cbn [build_one]. rewrite C1, (proj2 (Z.eqb_neq _ _) C2). change (1 =? 1) with true. change (1 =? 0) with false. cbn [negb andb].
    destruct (Z.leb_spec (Z.of_nat (length (c_vals c))) 1); [|rewrite Z.eqb_refl; reflexivity].
    destruct (Z.ltb_spec 0 (Z.of_nat (length (c_vals c)))); [|rewrite andb_false_r; reflexivity]. rewrite C4, Z.eqb_refl by lia. reflexivity.
  Qed.
  Definition inf_of (c : column F) : info (F := F) := mkInfo (c_dtype c) (c_vals c).
  Lemma build_all n cs : Forall (shaped n) cs -> BuildArrayInfo (map OArray cs) = Done (map inf_of cs).
  Proof.
    intros H. unfold BuildArrayInfo. assert (E : each build_one (map OArray cs) = Done (map inf_of cs)).
    { induction H as [|c cs Hc _ IH]; [reflexivity|]. cbn [map each]. rewrite (build_shaped n c Hc), IH. reflexivity. }
    rewrite E. cbn [obind]. replace (forallb _ _) with true; [reflexivity|]. symmetry. apply forallb_forall. intros i Hi. apply in_map_iff in Hi as (c & <- & Hc).
    rewrite Forall_forall in H. destruct cs as [|c0 cs]; [destruct Hc|]. cbn [map hd inf_of i_vals]. apply Nat.eqb_eq.
    destruct (H c Hc) as (_ & _ & L & _), (H c0 (or_introl eq_refl)) as (_ & _ & L' & _). lia.
  Qed.
  Lemma each_error {X Y} (f : X -> outcome Y) l x r : (forall y, In y l -> exists z, f y = Done z) -> f x = Error -> each f (l ++ x :: r) = Error.
  Proof.
    induction l as [|y l IH]; intros H E; cbn [each app]; [now rewrite E|]. destruct (H y) as (z & ->); [now left|]. cbn [obind]. rewrite IH; [reflexivity| |exact E].
    intros w Hw. apply H. now right.
  Qed.
  Lemma each_no_undef {X Y} (f : X -> outcome Y) l x : (forall y, In y l -> f y <> Undefined) -> In x l -> f x = Error -> each f l = Error.
  Proof.
    induction l as [|y l IH]; intros H Hx E; [destruct Hx|]. cbn [each]. destruct Hx as [-> | Hx]; [now rewrite E|].
    pose proof (H y (or_introl eq_refl)) as N. destruct (f y); [|reflexivity|contradiction]. cbn [obind]. rewrite IH; auto. intros w Hw. apply H. now right.
  Qed.

  Lemma not_array n cs rest key unique funcs lows highs : Forall (shaped n) cs -> call (map OArray cs ++ OOther :: rest) key unique funcs lows highs = Error.
  Proof.
    intros H. unfold GroupByAll32. destruct (k_dims key =? 1); [|reflexivity]. destruct (existsb _ _); [|reflexivity]. cbn [negb]. unfold BuildArrayInfo.
    rewrite each_error; [reflexivity| |reflexivity]. intros o Ho. apply in_map_iff in Ho as (c & <- & Hc). rewrite Forall_forall in H. eexists. apply (build_shaped n); auto.
  Qed.
  Lemma bad_column n cs c rest key unique funcs lows highs : Forall (shaped n) cs -> c_dtype c = -1 \/ c_ndim c <> 0 /\ c_ndim c <> 1 ->
    call (map OArray cs ++ OArray c :: rest) key unique funcs lows highs = Error.
  Proof.
    intros H B. unfold GroupByAll32. destruct (k_dims key =? 1); [|reflexivity]. destruct (existsb _ _); [|reflexivity]. cbn [negb]. unfold BuildArrayInfo.
    rewrite each_error; [reflexivity| |].
    - intros o Ho. apply in_map_iff in Ho as (c' & <- & Hc). rewrite Forall_forall in H. eexists. apply (build_shaped n); auto.
    - cbn [build_one]. destruct (Z.eqb_spec (c_dtype c) (-1)); [reflexivity|]. destruct B as [B | [B0 B1]]; [contradiction|].
      destruct (Z.eqb_spec (c_ndim c) 0); [contradiction|]. destruct (Z.eqb_spec (c_ndim c) 1); [contradiction|]. reflexivity.
  Qed.
  Lemma bad_lists n cs key unique funcs lows highs : Forall (shaped n) cs -> length funcs <> length cs \/ length lows <> length cs ->
    call (map OArray cs) key unique funcs lows highs = Error.
  Proof.
    intros H N. unfold GroupByAll32. destruct (k_dims key =? 1); [|reflexivity]. destruct (existsb _ _); [|reflexivity]. cbn [negb].
    rewrite (build_all n cs H). cbn [obind]. rewrite map_length. destruct (Nat.eqb_spec (length cs) (length funcs)); [|reflexivity].
    destruct (Nat.eqb_spec (length cs) (length lows)); [|reflexivity]. lia.
  Qed.
  Lemma bad_length n cs key unique funcs lows highs : Forall (shaped n) cs -> cs <> [] -> k_len key <> n -> call (map OArray cs) key unique funcs lows highs = Error.
  Proof.
    intros H NE N. unfold GroupByAll32. destruct (k_dims key =? 1); [|reflexivity]. destruct (existsb _ _); [|reflexivity]. cbn [negb].
    rewrite (build_all n cs H). cbn [obind]. rewrite map_length. destruct (Nat.eqb_spec (length cs) (length funcs)); [|reflexivity].
    destruct (Nat.eqb_spec (length cs) (length lows)); [|reflexivity]. cbn [negb]. destruct cs as [|c cs]; [contradiction|]. cbn [map inf_of i_vals].
    apply Forall_inv in H as (_ & _ & L & _). rewrite (proj2 (Z.eqb_neq _ _)) by lia. reflexivity.
  Qed.
  Lemma columns_differ c c' rest n n' key unique funcs lows highs : shaped n c -> shaped n' c' -> n <> n' -> Forall (fun c => exists k, shaped k c) rest ->
    call (map OArray (c :: c' :: rest)) key unique funcs lows highs = Error.
  Proof.
    intros H H' N HR. unfold GroupByAll32. destruct (k_dims key =? 1); [|reflexivity]. destruct (existsb _ _); [|reflexivity]. cbn [negb]. unfold BuildArrayInfo.
    assert (E : each build_one (map OArray (c :: c' :: rest)) = Done (map inf_of (c :: c' :: rest))).
    { cbn [map each]. rewrite (build_shaped n c H), (build_shaped n' c' H'). cbn [obind].
      replace (each build_one (map OArray rest)) with (@Done (list (info (F := F))) (map inf_of rest)); [reflexivity|].
      symmetry. induction HR as [|x l (k & Hx) _ IH]; [reflexivity|]. cbn [map each]. rewrite (build_shaped k x Hx), IH. reflexivity. }
    rewrite E. cbn [obind map forallb hd inf_of i_vals]. destruct H as (_ & _ & L & _), H' as (_ & _ & L' & _).
    rewrite Nat.eqb_refl. rewrite (proj2 (Nat.eqb_neq (length (c_vals c')) (length (c_vals c)))) by lia. reflexivity.
  Qed.

  Lemma as_func_small z : - 2 ^ 31 <= z < 2 ^ 31 -> as_func z = z.
  Proof. intros H. unfold as_func. rewrite as_int64_id by lia. cbn [wrapT]. change (8 * 4 - 1) with 31. change (8 * 4) with 32. rewrite Z.mod_small; lia. Qed.

  Lemma unsupported (qs : list (query (F := F))) key unique q : key_ok key -> Forall (fun q => shaped (k_len key) (q_col q)) qs ->
    - 2 ^ 63 <= (unique + 1) * 10 < 2 ^ 63 -> In q qs -> - 2 ^ 31 <= q_func q < 2 ^ 31 -> ~ (In (q_func q) functions /\ 0 <= c_dtype (q_col q) <= 13) ->
    GroupBy A m qs key unique = Error.
  Proof.
    intros KO H HU Hq HF HN. unfold GroupBy, GroupByAll32.
    destruct KO as (K1 & K2 & K3 & _). rewrite K1. change (1 =? 1) with true. cbn [negb].
    replace (existsb (Z.eqb (k_dtype key)) [1; 3; 5; 7; 9]) with true by (symmetry; apply existsb_exists; exists (k_dtype key); split; [exact K2|apply Z.eqb_refl]). cbn [negb].
    replace (map (fun q => OArray (q_col q)) qs) with (map (@OArray F) (map q_col qs)) by now rewrite map_map.
    rewrite (build_all (k_len key)) by (apply Forall_forall; intros c Hc; apply in_map_iff in Hc as (p & <- & Hp); rewrite Forall_forall in H; auto).
    cbn [obind]. rewrite !map_length, Nat.eqb_refl. cbn [negb]. rewrite map_map.
    assert (REST : forall (h : list (task (F := F)) -> outcome (list (Z * list (num F)))),
      obind (each (prepare (unique + 1) (map q_func qs) (map q_low qs) (map q_high qs)) (combine (seq 0 (length qs)) (map (fun x => inf_of (q_col x)) qs))) h = Error).
    { intros h. apply In_nth_error in Hq as (i & Hi).
      rewrite each_no_undef with (x := (i, inf_of (q_col q))); [reflexivity| | |].
      - intros [j c] Hj. rewrite combine_map_r in Hj. apply in_map_iff in Hj as ([j' p] & [= -> <-] & Hj). apply in_combine_seq in Hj as (j'' & -> & Np). cbn [fst snd Nat.add].
        unfold prepare. cbn [fst snd]. rewrite !(map_nth_error _ _ _ Np). destruct (GetGroupByFunction _ _); [|discriminate]. destruct (_ <? 0); [discriminate|]. destruct (_ && _); discriminate.
      - rewrite combine_map_r. apply in_map_iff. exists (i, q). split; [reflexivity|].
        assert (G : forall (l : list (query (F := F))) s j, nth_error l j = Some q -> In ((s + j)%nat, q) (combine (seq s (length l)) l)).
        { induction l as [|y l IH]; intros s j E; [destruct j; discriminate E|]. destruct j as [|j]; cbn in E |- *; [injection E as ->; left; f_equal; lia|].
          right. replace (s + S j)%nat with (S s + j)%nat by lia. auto. }
        exact (G qs 0%nat i Hi).
      - unfold prepare. cbn [fst snd]. rewrite !(map_nth_error _ _ _ Hi). rewrite as_func_small by exact HF. cbn [inf_of i_dtype]. rewrite table_none by exact HN. reflexivity. }
    assert (REST' := REST (fun ts => obind (undef (read_key key)) (fun ks => each (group_by_call A m (unique + 1) ks) ts))). clear REST.
    destruct qs as [|q0 qs]; [destruct Hq|]. cbn [map] in *. cbn [inf_of i_vals] in *.
    assert (C3 : Z.of_nat (length (c_vals (q_col q0))) = k_len key) by (apply Forall_inv in H as (_ & _ & L & _); exact L).
    rewrite C3, Z.eqb_refl. cbn [negb]. rewrite (proj2 (Z.leb_le (- 2 ^ 63) _)), (proj2 (Z.ltb_lt _ (2 ^ 63))) by lia. cbn [andb negb hd].
    destruct qs as [|q1 qs]; cbn [map] in *; [|cbn [obind]; exact REST'].
    destruct Hq as [-> | []]. rewrite as_func_small by exact HF.
    destruct (_ <? k_len key); [|cbn [obind]; exact REST']. destruct (scatters (q_func q)); [|cbn [obind]; exact REST'].
    unfold single_op. cbn [i_dtype]. rewrite table_none by exact HN. cbn [obind]. exact REST'.
  Qed.
End Errors.

Lemma whole_ok : arith_ok whole.
Proof.
  split; [|split; [|split; [|split]]]; try reflexivity. split; [|split].
  - intros [a|]; [apply Z.ltb_irrefl|reflexivity].
  - intros [a|] [b|] [c|]; try discriminate. cbn. rewrite !Z.ltb_lt. lia.
  - intros [a|] [b|] [c|]; try discriminate. cbn. rewrite !Z.ltb_ge. lia.
Qed.
Lemma whole_exact : arith_exact whole.
Proof.
  split; [|split; [|split]].
  - intros. split; [reflexivity|split; [reflexivity|split; reflexivity]].
  - reflexivity.
  - intros U. split; [|split].
    + intros [a|] [b|]; cbn; f_equal; lia.
    + intros [a|] [b|] [c|]; cbn; f_equal; lia.
    + reflexivity.
  - intros U [s|] n; [discriminate|reflexivity].
Qed.
