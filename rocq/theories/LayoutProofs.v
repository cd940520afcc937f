(** Proofs about arrays of several dimensions. *)
From Verif Require Import Base Mem MemLemmas Par LayoutModel LayoutSpec.
Local Open Scope Z_scope.
Lemma CHUNK_pos : (0 < CHUNK)%nat.
Proof. unfold CHUNK. lia. Qed.
Local Opaque CHUNK.

(** ** Filling the output *)
Lemma fill_ok size len calls g : 0 < size -> Permutation calls (map (fun i => (Z.of_nat i * size, g i)) (seq 0 len)) ->
  fill size len calls = Filled (map (fun i => Some (g i)) (seq 0 len)).
Proof.
  intros Hs P. unfold fill. rewrite (item_writes_enum size _ (map (fun i => Some (g i)) (seq 0 len))); auto.
  - apply (Permutation_map (fun p : Z * Z => (fst p, Some (snd p)))) in P. rewrite map_map in P. cbn [fst snd] in P.
    eapply Permutation_trans; [exact P|]. change 0 with (0 * size). rewrite enum_scale, (enum_map_seq (fun i => Some (g i))) by reflexivity.
    rewrite map_map. reflexivity.
  - now rewrite repeat_length, map_length, seq_length.
Qed.
Lemma call_seq a si so n : call (Z.of_nat a * si) (Z.of_nat a * so) si so n = map (fun i => (Z.of_nat i * so, Z.of_nat i * si)) (seq a n).
Proof.
  unfold call. apply list_ext. intros k. rewrite !nth_error_map, !nth_error_seq. destruct (Nat.ltb_spec k n); simpl; auto. f_equal. f_equal; lia.
Qed.
Lemma flat_seq thr len si so : flat_calls thr len si so = map (fun i => (Z.of_nat i * so, Z.of_nat i * si)) (seq 0 len).
Proof.
  unfold flat_calls. rewrite <- (chunk_calls_map thr CHUNK len) by exact CHUNK_pos.
  f_equal. apply map_ext. intros [a n]. apply call_seq.
Qed.
Lemma rows_seq S0 s so inner outer : (0 < inner)%nat ->
  concat (map (fun j => call (Z.of_nat j * S0) (Z.of_nat j * Z.of_nat inner * so) s so inner) (seq 0 outer)) =
  map (fun p => (Z.of_nat p * so, Z.of_nat (p / inner) * S0 + Z.of_nat (p mod inner) * s)) (seq 0 (outer * inner)).
Proof.
  intros Hi. induction outer as [|n IH]; auto. rewrite seq_S, map_app, concat_app, IH. simpl. rewrite app_nil_r.
  replace (inner + n * inner)%nat with (n * inner + inner)%nat by lia. rewrite seq_app, map_app. f_equal.
  unfold call. simpl. apply list_ext. intros k. rewrite !nth_error_map, !nth_error_seq. destruct (Nat.ltb_spec k inner); simpl; auto.
  f_equal. f_equal; [lia|].
  replace ((n * inner + k) / inner)%nat with n by (rewrite Nat.div_add_l, Nat.div_small by lia; lia).
  replace ((n * inner + k) mod inner)%nat with k by (rewrite Nat.add_comm, Nat.mod_add, Nat.mod_small by lia; lia). reflexivity.
Qed.

(** ** Positions *)
Fixpoint posC (ds idx : list nat) : nat := match ds, idx with d :: ds', i :: idx' => (i * prod ds' + posC ds' idx')%nat | _, _ => 0%nat end.
Fixpoint posF (ds idx : list nat) : nat := match ds, idx with d :: ds', i :: idx' => (i + d * posF ds' idx')%nat | _, _ => 0%nat end.
Lemma posC_lt ds idx : valid ds idx -> (posC ds idx < prod ds)%nat.
Proof. intros V. induction V as [|i d idx ds H V IH]; simpl; [lia|]. nia. Qed.
Lemma posF_lt ds idx : valid ds idx -> (posF ds idx < prod ds)%nat.
Proof. intros V. induction V as [|i d idx ds H V IH]; simpl; [lia|]. nia. Qed.
Lemma offset_C s ds idx : valid ds idx -> offset (cstrides s ds) idx = Z.of_nat (posC ds idx) * s.
Proof. intros V. induction V as [|i d idx ds H V IH]; simpl; [lia|]. rewrite IH. lia. Qed.
Lemma offset_F ds idx : valid ds idx -> forall s, offset (fstrides s ds) idx = Z.of_nat (posF ds idx) * s.
Proof. intros V. induction V as [|i d idx ds H V IH]; intros s; simpl; [lia|]. rewrite IH, Nat2Z.inj_add, Nat2Z.inj_mul. ring. Qed.
Lemma offset_flag ds idx : valid ds idx -> forall s ss, length ss = length ds -> f_flag s ds ss = true -> offset ss idx = Z.of_nat (posF ds idx) * s.
Proof.
  intros V. induction V as [|i d idx ds H V IH]; intros s ss L F; destruct ss as [|x ss]; simpl in *; try lia.
  destruct (Nat.eqb_spec d 1) as [->|].
  - rewrite (IH s) by (auto; lia). assert (i = 0)%nat by lia. subst. lia.
  - apply andb_true_iff in F as [E F]. apply Z.eqb_eq in E. subst x. rewrite (IH (s * Z.of_nat d) ss) by (auto; lia). rewrite Nat2Z.inj_add, Nat2Z.inj_mul. ring.
Qed.
Lemma flag_F ds : forall s, f_flag s ds (fstrides s ds) = true.
Proof. induction ds as [|d ds IH]; intros s; simpl; auto. destruct (Nat.eqb_spec d 1) as [->|]; [rewrite Z.mul_1_r; auto|]. now rewrite Z.eqb_refl, IH. Qed.
Lemma cstrides_length s ds : length (cstrides s ds) = length ds.
Proof. induction ds; simpl; auto. Qed.
Lemma fstrides_length ds : forall s, length (fstrides s ds) = length ds.
Proof. induction ds; intros; simpl; auto. Qed.
Lemma cstrides_nth s ds : forall k, (k < length ds)%nat -> nth k (cstrides s ds) 0 = s * Z.of_nat (prod (skipn (S k) ds)).
Proof. induction ds as [|d ds IH]; intros [|k] H; simpl in *; try lia. apply IH. lia. Qed.
Lemma fstrides_nth ds : forall s k, (k < length ds)%nat -> nth k (fstrides s ds) 0 = s * Z.of_nat (prod (firstn k ds)).
Proof. induction ds as [|d ds IH]; intros s [|k] H; simpl in *; try lia. rewrite IH by lia. lia. Qed.
Lemma prod_pos ds : Forall (fun d => 0 < d)%nat ds -> (0 < prod ds)%nat.
Proof. induction 1; simpl; nia. Qed.
Lemma prod_app a b : prod (a ++ b) = (prod a * prod b)%nat.
Proof. induction a; simpl; lia. Qed.
Lemma Forall_skipn' {A} (P : A -> Prop) k l : Forall P l -> Forall P (skipn k l).
Proof. intros H. rewrite Forall_forall in *. intros x Hx. apply H. rewrite <- (firstn_skipn k l). apply in_or_app. auto. Qed.
Lemma Forall_firstn' {A} (P : A -> Prop) k l : Forall P l -> Forall P (firstn k l).
Proof. intros H. rewrite Forall_forall in *. intros x Hx. apply H. rewrite <- (firstn_skipn k l). apply in_or_app. auto. Qed.
Lemma skipn_nth_cons (l : list nat) k : (k < length l)%nat -> skipn k l = nth k l 0%nat :: skipn (S k) l.
Proof. revert k. induction l as [|x l IH]; intros [|k] H; simpl in *; try lia; auto. apply IH. lia. Qed.
Lemma prod_skipn l k : (k < length l)%nat -> prod (skipn k l) = (nth k l 0 * prod (skipn (S k) l))%nat.
Proof. intros H. rewrite skipn_nth_cons by auto. reflexivity. Qed.
Lemma firstn_snoc_nth (l : list nat) k : (k < length l)%nat -> firstn (S k) l = firstn k l ++ [nth k l 0%nat].
Proof. revert k. induction l as [|x l IH]; intros [|k] H; simpl in *; try lia; auto. f_equal. apply IH. lia. Qed.
Lemma prod_firstn l k : (k < length l)%nat -> prod (firstn (S k) l) = (prod (firstn k l) * nth k l 0)%nat.
Proof. intros H. rewrite firstn_snoc_nth, prod_app by auto. simpl. lia. Qed.

(** ** The loops of GetStridesAndContig *)
Lemma c_loop_ok l s r k : (k < length (dims l))%nat -> (r <= k)%nat ->
  (forall j, (r <= j < k)%nat -> nth j (strides l) 0 = s * Z.of_nat (prod (skipn (S j) (dims l)))) ->
  (c_loop l k (s * Z.of_nat (prod (skipn (S k) (dims l)))) <= r)%nat.
Proof.
  induction k as [|k IH]; intros Hk Hr H; cbn [c_loop]; [lia|].
  assert (E : s * Z.of_nat (prod (skipn (S (S k)) (dims l))) * Z.of_nat (nth (S k) (dims l) 0%nat) = s * Z.of_nat (prod (skipn (S k) (dims l)))).
  { rewrite (prod_skipn (dims l) (S k)) by auto. lia. }
  rewrite E.
  destruct (Nat.eq_dec r (S k)) as [->|N].
  - destruct (Z.eqb_spec (nth k (strides l) 0) (s * Z.of_nat (prod (skipn (S k) (dims l))))); [|lia].
    enough (forall j c, (c_loop l j c <= j)%nat) as X by (specialize (X k (s * Z.of_nat (prod (skipn (S k) (dims l))))); lia).
    clear. induction j; intros c; simpl; auto. destruct (_ =? _); auto.
  - rewrite (H k) by lia. rewrite Z.eqb_refl. apply IH; try lia. intros j Hj. apply H. lia.
Qed.
Lemma c_loop_1 l k c : (1 <= k)%nat -> nth 0 (strides l) 0 <> c * Z.of_nat (prod (firstn k (skipn 1 (dims l)))) -> (k < length (dims l))%nat -> (1 <= c_loop l k c)%nat.
Proof.
  revert c. induction k as [|k IH]; intros c Hk N L; [lia|]. cbn [c_loop].
  destruct (Z.eqb_spec (nth k (strides l) 0) (c * Z.of_nat (nth (S k) (dims l) 0%nat))) as [E|]; [|lia].
  destruct k as [|k].
  - exfalso. apply N. rewrite E. destruct (dims l) as [|d0 [|d1 ds]]; simpl in *; lia.
  - apply IH; try lia. intros E2. apply N. rewrite E2. rewrite (prod_firstn (skipn 1 (dims l)) (S k)) by (rewrite skipn_length; lia).
    replace (nth (S k) (skipn 1 (dims l)) 0%nat) with (nth (S (S k)) (dims l) 0%nat) by (destruct (dims l); simpl in *; [lia|reflexivity]). lia.
Qed.
Lemma f_loop_ok l s n k : (k + n = length (dims l) - 1)%nat -> (0 < length (dims l))%nat ->
  (forall j, (k < j < length (dims l))%nat -> nth j (strides l) 0 = s * Z.of_nat (prod (firstn j (dims l)))) ->
  f_loop l n k (s * Z.of_nat (prod (firstn k (dims l)))) = (length (dims l) - 1)%nat.
Proof.
  revert k. induction n as [|n IH]; intros k Hk L H; cbn [f_loop]; [lia|].
  assert (E : s * Z.of_nat (prod (firstn k (dims l))) * Z.of_nat (nth k (dims l) 0%nat) = s * Z.of_nat (prod (firstn (S k) (dims l)))) by (rewrite prod_firstn by lia; lia).
  rewrite E, (H (S k)), Z.eqb_refl by lia. apply IH; auto; try lia. intros j Hj. apply H. lia.
Qed.

(** The stride of a new array is the size of an item, in one loop. *)
Lemma contig_C ds size st : 0 < size -> Forall (fun d => 0 < d)%nat ds -> st = cstrides size ds -> GetStridesAndContig {| dims := ds; strides := st; isz := size |} = (0, size).
Proof.
  intros Hs P ->. unfold GetStridesAndContig. cbn [dims strides isz]. destruct ds as [|d0 [|d1 ds]].
  - reflexivity.
  - simpl. destruct d0 as [|[|d0]]; simpl; f_equal; lia.
  - set (all := d0 :: d1 :: ds) in *. assert (L : (2 <= length all)%nat) by (simpl; lia).
    destruct (Nat.eqb_spec (length all) 0); [lia|]. destruct (Nat.ltb_spec 1 (length all)); [|lia].
    rewrite (cstrides_nth size all (length all - 1)) by lia. replace (S (length all - 1)) with (length all) by lia. rewrite skipn_all. cbn [prod fold_right]. rewrite Z.mul_1_r.
    replace (if (1 <? nth (length all - 1) all 0)%nat then size else size) with size by (destruct (_ <? _)%nat; auto).
    rewrite (cstrides_nth size all 0) by lia.
    assert (Q : (0 < prod (skipn 1 all))%nat) by (apply prod_pos, Forall_skipn'; auto).
    destruct (Nat.ltb_spec 1 (nth 0 all 0%nat)).
    + destruct (Z.eqb_spec size (size * Z.of_nat (prod (skipn 1 all)))) as [<-|N]; auto.
      destruct (Z.ltb_spec (Z.abs size) (Z.abs (size * Z.of_nat (prod (skipn 1 all))))); [|nia].
      pose proof (c_loop_ok {| dims := all; strides := cstrides size all; isz := size |} size 0 (length all - 1)) as C. cbn [dims strides] in C.
      replace (S (length all - 1)) with (length all) in C by lia. rewrite skipn_all in C. cbn [prod fold_right] in C. rewrite Z.mul_1_r in C.
      f_equal. apply Nat2Z.inj_iff with (m := 0%nat). apply Nat.le_0_r, C; try lia. intros j Hj. apply cstrides_nth. lia.
    + rewrite Z.eqb_refl. reflexivity.
Qed.
Lemma contig_F ds size st : 0 < size -> Forall (fun d => 0 < d)%nat ds -> st = fstrides size ds -> GetStridesAndContig {| dims := ds; strides := st; isz := size |} = (0, size).
Proof.
  intros Hs P ->. unfold GetStridesAndContig. cbn [dims strides isz]. destruct ds as [|d0 [|d1 ds]].
  - reflexivity.
  - simpl. destruct d0 as [|[|d0]]; simpl; f_equal; lia.
  - set (all := d0 :: d1 :: ds) in *. assert (L : (2 <= length all)%nat) by (simpl; lia).
    destruct (Nat.eqb_spec (length all) 0); [lia|]. destruct (Nat.ltb_spec 1 (length all)); [|lia].
    rewrite (fstrides_nth all size 0) by lia. cbn [firstn prod fold_right]. rewrite Z.mul_1_r.
    replace (if (1 <? nth 0 all 0)%nat then size else size) with size by (destruct (_ <? _)%nat; auto).
    rewrite (fstrides_nth all size (length all - 1)) by lia.
    assert (Q : (0 < prod (firstn (length all - 1) all))%nat) by (apply prod_pos, Forall_firstn'; auto).
    pose proof (f_loop_ok {| dims := all; strides := fstrides size all; isz := size |} size (length all - 1) 0) as C. cbn [dims strides] in C.
    cbn [firstn prod fold_right] in C. rewrite Z.mul_1_r in C. fold prod in *.
    destruct (_ <? _)%nat.
    + destruct (Z.eqb_spec (size * Z.of_nat (prod (firstn (length all - 1) all))) size) as [E|N]; auto.
      destruct (Z.ltb_spec (Z.abs (size * Z.of_nat (prod (firstn (length all - 1) all)))) (Z.abs size)); [nia|].
      rewrite C; try lia; [f_equal; lia|]. intros j Hj. apply fstrides_nth. lia.
    + rewrite Z.eqb_refl. reflexivity.
Qed.
Lemma contig_new f ds size : 0 < size -> Forall (fun d => 0 < d)%nat ds -> GetStridesAndContig (new_array f ds size) = (0, size).
Proof. intros. unfold new_array. destruct f; [apply contig_F|apply contig_C]; auto. Qed.

(** ** ConvertSafe *)
Definition new_pos (f : bool) (ds idx : list nat) : nat := if f then posF ds idx else posC ds idx.
Lemma new_pos_ok f ds idx size : valid ds idx -> offset (strides (new_array f ds size)) idx = Z.of_nat (new_pos f ds idx) * size /\ (new_pos f ds idx < prod ds)%nat.
Proof. intros V. unfold new_array, new_pos. cbn [strides]. destruct f; [split; [apply offset_F|apply posF_lt]; auto|split; [apply offset_C|apply posC_lt]; auto]. Qed.
Lemma same_items_intro l osize g : (forall idx, valid (dims l) idx -> g (new_pos (f_flag (isz l) (dims l) (strides l)) (dims l) idx) = offset (strides l) idx) ->
  same_items l (like l osize) (map (fun i => Some (g i)) (seq 0 (prod (dims l)))).
Proof.
  intros H. split; [now rewrite map_length, seq_length|]. intros idx V.
  destruct (new_pos_ok (f_flag (isz l) (dims l) (strides l)) (dims l) idx osize V) as [E B]. eexists. split; [exact E|].
  rewrite nth_error_map, nth_error_seq. destruct (Nat.ltb_spec (new_pos (f_flag (isz l) (dims l) (strides l)) (dims l) idx) (prod (dims l))); [|lia]. simpl. now rewrite H.
Qed.
Lemma safe_flat ord thr l osize s : fair ord -> good l -> 0 < osize -> GetStridesAndContig l = (0, s) ->
  (forall idx, valid (dims l) idx -> offset (strides l) idx = Z.of_nat (new_pos (f_flag (isz l) (dims l) (strides l)) (dims l) idx) * s) ->
  exists o, ConvertSafe ord thr l osize = Filled o /\ same_items l (like l osize) o.
Proof.
  intros Ho (P & L) Hs E H. unfold ConvertSafe. rewrite E, contig_new by auto. cbn [Z.eqb andb].
  rewrite flat_seq. rewrite (fill_ok osize _ _ (fun i => Z.of_nat i * s)) by (auto; apply Ho). eexists. split; [reflexivity|]. apply same_items_intro. intros idx V. now rewrite H.
Qed.
Lemma safe_rows ord thr l osize s : good l -> 0 < osize -> GetStridesAndContig l = (1, s) -> (0 < length (dims l))%nat ->
  (forall idx, valid (dims l) idx -> let p := new_pos (f_flag (isz l) (dims l) (strides l)) (dims l) idx in let inner := prod (skipn 1 (dims l)) in
     offset (strides l) idx = Z.of_nat (p / inner) * nth 0 (strides l) 0 + Z.of_nat (p mod inner) * s) ->
  exists o, ConvertSafe ord thr l osize = Filled o /\ same_items l (like l osize) o.
Proof.
  intros (P & L) Hs E Hn H. unfold ConvertSafe. rewrite E, contig_new by auto. cbn [Z.eqb andb Pos.eqb].
  rewrite rows_seq by (apply prod_pos, Forall_skipn'; auto). 
  assert (X : (nth 0 (dims l) 0 * prod (skipn 1 (dims l)) = prod (dims l))%nat) by (destruct (dims l); simpl in *; [lia|reflexivity]).
  rewrite X. rewrite (fill_ok osize _ _ (fun p => Z.of_nat (p / prod (skipn 1 (dims l))) * nth 0 (strides l) 0 + Z.of_nat (p mod prod (skipn 1 (dims l))) * s)) by auto.
  eexists. split; [reflexivity|]. apply (same_items_intro l osize (fun p => Z.of_nat (p / prod (skipn 1 (dims l))) * nth 0 (strides l) 0 + Z.of_nat (p mod prod (skipn 1 (dims l))) * s)). intros idx V. now rewrite H.
Qed.

(** One dimension or none: any stride. *)
Lemma safe_1d ord thr l osize : fair ord -> good l -> 0 < osize -> (length (dims l) <= 1)%nat -> exists o, ConvertSafe ord thr l osize = Filled o /\ same_items l (like l osize) o.
Proof.
  intros Ho G Hs N. destruct l as [ds ss size]. destruct G as (P & L). cbn [dims strides] in *. destruct ds as [|d [|]]; cbn [length] in *; try lia.
  - destruct ss; [|simpl in L; lia]. apply safe_flat with (s := size); [auto|now split|auto|reflexivity|]. cbn [dims strides isz]. intros idx V. inversion V. subst. simpl. lia.
  - destruct ss as [|x [|]]; simpl in L; try lia. apply safe_flat with (s := if (1 <? d)%nat then x else size); [auto|now split|auto|reflexivity|]. 
    cbn [dims strides isz]. intros idx V. inversion V as [|i ? idx' ? Hi V']. inversion V'. subst.
    assert (new_pos (f_flag size [d] [x]) [d] [i] = i) as -> by (unfold new_pos; destruct (f_flag size [d] [x]); simpl; lia). simpl.
    destruct (Nat.ltb_spec 1 d); [lia|]. assert (i = 0)%nat by lia. subst. lia.
Qed.
(** Fortran order. *)
Lemma safe_F ord thr l osize : fair ord -> good l -> 0 < osize -> 0 < isz l -> strides l = fstrides (isz l) (dims l) -> exists o, ConvertSafe ord thr l osize = Filled o /\ same_items l (like l osize) o.
Proof.
  intros Ho G Hs Hz E. apply safe_flat with (s := isz l); auto.
  - destruct l as [ds ss size], G. apply contig_F; auto.
  - intros idx V. rewrite E, flag_F. unfold new_pos. now apply offset_F.
Qed.
(** C order. *)
Lemma safe_C ord thr l osize : fair ord -> good l -> 0 < osize -> 0 < isz l -> strides l = cstrides (isz l) (dims l) -> exists o, ConvertSafe ord thr l osize = Filled o /\ same_items l (like l osize) o.
Proof.
  intros Ho G Hs Hz E. apply safe_flat with (s := isz l); auto.
  - destruct l as [ds ss size], G. apply contig_C; auto.
  - intros idx V. destruct (f_flag (isz l) (dims l) (strides l)) eqn:F; unfold new_pos.
    + apply offset_flag; auto. apply G.
    + rewrite E. now apply offset_C.
Qed.
(** A flag for Fortran order contradicts rows that are further apart than the items of a row. *)
Lemma flag_first s ds ss : f_flag s ds ss = true -> (1 < nth 0 ds 0)%nat -> (0 < length ss)%nat -> nth 0 ss 0 = s.
Proof. destruct ds as [|d ds], ss as [|x ss]; simpl; try lia. intros F H _. destruct (Nat.eqb_spec d 1); [lia|]. apply andb_true_iff in F as [F _]. now apply Z.eqb_eq in F. Qed.
Lemma flag_last ds : forall s ss, 0 < s -> Forall (fun d => 0 < d)%nat ds -> length ss = length ds -> f_flag s ds ss = true -> ds <> [] -> (1 < nth (length ds - 1) ds 0)%nat -> s <= nth (length ds - 1) ss 0.
Proof.
  induction ds as [|d ds IH]; intros s ss Hs P L F N H; [easy|]. destruct ss as [|x ss]; [easy|]. inversion P; subst.
  destruct ds as [|d' ds].
  - simpl in *. destruct (Nat.eqb_spec d 1); [lia|]. apply andb_true_iff in F as [F _]. apply Z.eqb_eq in F. lia.
  - set (t := d' :: ds) in *. assert (LT : (1 <= length t)%nat) by (subst t; simpl; lia).
    assert (NT : t <> []) by discriminate. clearbody t. cbn [length f_flag] in *. injection L as L.
    rewrite Nat.sub_succ, Nat.sub_0_r in *. destruct (length t) as [|m] eqn:E; [lia|]. cbn [nth] in *. rewrite Nat.sub_succ, Nat.sub_0_r in IH.
    destruct (Nat.eqb_spec d 1) as [->|].
    + apply IH; auto.
    + apply andb_true_iff in F as [_ F]. apply (IH (s * Z.of_nat d)) in F; auto; nia.
Qed.

(** Rows [S0] bytes apart, the items of a row [s] bytes apart: any number of dimensions, any signs. *)
Lemma safe_C_rows ord thr l osize d0 ds S0 s : fair ord -> good l -> 0 < osize -> 0 < isz l -> dims l = d0 :: ds -> ds <> [] -> strides l = S0 :: cstrides s ds ->
  (1 < d0)%nat -> (1 < nth (length ds - 1) ds 0)%nat \/ s = isz l -> Z.abs s < Z.abs S0 ->
  exists o, ConvertSafe ord thr l osize = Filled o /\ same_items l (like l osize) o.
Proof.
  intros Ho G Hs Hz ED N ES H0 HL HA. pose proof G as [P L]. rewrite ED in P. inversion P as [|? ? P0 PD]; subst.
  assert (LD : (1 <= length ds)%nat) by (destruct ds; [easy|simpl; lia]).
  assert (NL : nth (length ds) (dims l) 0%nat = nth (length ds - 1) ds 0%nat) by (rewrite ED; destruct (length ds) eqn:E; [lia|]; simpl; now rewrite Nat.sub_0_r).
  assert (NS : nth (length ds) (strides l) 0 = s).
  { rewrite ES. destruct (length ds) eqn:E; [lia|]. cbn [nth]. rewrite cstrides_nth by lia. rewrite <- E, skipn_all. simpl. lia. }
  assert (FF : f_flag (isz l) (dims l) (strides l) = false).
  { destruct (f_flag (isz l) (dims l) (strides l)) eqn:F; auto. exfalso.
    pose proof (flag_first _ _ _ F) as F1. rewrite ED, ES in F1. cbn [nth length] in F1. specialize (F1 H0 ltac:(lia)).
    destruct HL as [HL|HL]; [|lia].
    pose proof (flag_last (dims l) (isz l) (strides l) Hz ltac:(rewrite ED; auto) L F) as F2. rewrite ED in F2. specialize (F2 ltac:(discriminate)).
    cbn [length] in F2. rewrite Nat.sub_succ, Nat.sub_0_r, <- ED, NS, NL in F2. specialize (F2 HL). lia. }
  assert (GS : exists r, (r <= 1)%nat /\ GetStridesAndContig l = (Z.of_nat r, s) /\ (r = 0%nat -> S0 = s * Z.of_nat (prod ds))).
  { assert (LE : length (dims l) = S (length ds)) by now rewrite ED. assert (D0 : nth 0 (dims l) 0%nat = d0) by now rewrite ED. assert (S1 : nth 0 (strides l) 0 = S0) by now rewrite ES.
    unfold GetStridesAndContig. rewrite LE, Nat.sub_succ, Nat.sub_0_r, D0, S1, NL, NS.
    destruct (Nat.ltb_spec 1 d0); [|lia]. destruct (Nat.ltb_spec 1 (S (length ds))); [|lia]. cbn [Nat.eqb].
    replace (if (1 <? nth (length ds - 1) ds 0)%nat then s else isz l) with s by (destruct (Nat.ltb_spec 1 (nth (length ds - 1) ds 0%nat)), HL; auto; lia).
    destruct (Z.eqb_spec s S0); [subst; lia|]. destruct (Z.ltb_spec (Z.abs s) (Z.abs S0)); [|lia].
    exists (c_loop l (length ds) s). split; [|split; auto].
    - pose proof (c_loop_ok l s 1 (length ds)) as C. rewrite ED in C. cbn [length] in C.
      replace (skipn (S (length ds)) (d0 :: ds)) with (@nil nat) in C by (symmetry; apply (skipn_all (d0 :: ds))). cbn [prod fold_right] in C. rewrite Z.mul_1_r in C.
      apply C; try lia. intros j Hj. rewrite ES. destruct j as [|j]; [lia|]. cbn [nth skipn]. apply cstrides_nth. lia.
    - intros R. destruct (Z.eq_dec S0 (s * Z.of_nat (prod ds))); auto. exfalso.
      pose proof (c_loop_1 l (length ds) s LD) as C. rewrite ES, ED in C. cbn [nth skipn length] in C. rewrite firstn_all in C. specialize (C n0 ltac:(lia)). lia. }
  destruct GS as (r & Hr & GS & R0).
  assert (OFF : forall idx, valid (dims l) idx -> exists i rest, idx = i :: rest /\ valid ds rest /\ offset (strides l) idx = Z.of_nat i * S0 + Z.of_nat (posC ds rest) * s).
  { clear NS. intros idx V. rewrite ED in V. inversion V as [|i d rest ds' Hi V']; subst. exists i, rest. split; auto. split; auto. rewrite ES. simpl. now rewrite (offset_C s). }
  destruct r as [|r].
  - apply safe_flat with (s := s); auto. intros idx V. destruct (OFF idx V) as (i & rest & -> & V' & ->). rewrite FF, ED. simpl. rewrite (R0 eq_refl). lia.
  - assert (r = 0)%nat by lia. subst r. apply safe_rows with (s := s); auto; [rewrite ED; simpl; lia|]. intros idx V. destruct (OFF idx V) as (i & rest & -> & V' & ->).
    pose proof (posC_lt _ _ V'). rewrite FF, ED, ES. cbn [new_pos posC skipn nth].
    replace ((i * prod ds + posC ds rest) / prod ds)%nat with i by (rewrite Nat.div_add_l, Nat.div_small by lia; lia).
    replace ((i * prod ds + posC ds rest) mod prod ds)%nat with (posC ds rest) by (rewrite Nat.add_comm, Nat.mod_add, Nat.mod_small by lia; lia). reflexivity.
Qed.

(** ** ConvertUnsafe *)
Lemma unsafe_flat ord thr l osize s : fair ord -> 0 < osize -> nth 0 (strides (like l osize)) 0 = osize \/ (prod (dims l) <= 1)%nat -> nth 0 (strides l) 0 = s ->
  (forall idx, valid (dims l) idx -> offset (strides l) idx = Z.of_nat (new_pos (f_flag (isz l) (dims l) (strides l)) (dims l) idx) * s) ->
  exists o, ConvertUnsafe ord thr l osize = Filled o /\ same_items l (like l osize) o.
Proof.
  intros Ho Hs E1 E2 H. unfold ConvertUnsafe. fold (like l osize). rewrite E2, flat_seq.
  rewrite (fill_ok osize _ _ (fun i => Z.of_nat i * s)); auto.
  - eexists. split; [reflexivity|]. apply same_items_intro. intros idx V. now rewrite H.
  - eapply Permutation_trans; [apply Ho|]. destruct E1 as [->|E1]; auto.
    destruct (prod (dims l)) as [|[|]]; auto. lia.
Qed.
Lemma unsafe_1d ord thr l osize : fair ord -> good l -> 0 < osize -> length (dims l) = 1%nat -> exists o, ConvertUnsafe ord thr l osize = Filled o /\ same_items l (like l osize) o.
Proof.
  intros Ho (P & L) Hs N. destruct l as [ds ss size]. cbn [dims strides] in *. destruct ds as [|d [|]]; try easy. destruct ss as [|x [|]]; try easy.
  apply unsafe_flat with (s := x); auto.
  - left. unfold like, new_array. cbn [dims strides isz]. destruct (f_flag size [d] [x]); simpl; lia.
  - cbn [dims strides isz]. intros idx V. inversion V as [|i ? idx' ? Hi V']. inversion V'. subst.
    assert (new_pos (f_flag size [d] [x]) [d] [i] = i) as -> by (unfold new_pos; destruct (f_flag size [d] [x]); simpl; lia). simpl. lia.
Qed.
Lemma unsafe_F ord thr l osize : fair ord -> good l -> 0 < osize -> (0 < length (dims l))%nat -> strides l = fstrides (isz l) (dims l) -> exists o, ConvertUnsafe ord thr l osize = Filled o /\ same_items l (like l osize) o.
Proof.
  intros Ho (P & L) Hs N E. apply unsafe_flat with (s := isz l); auto.
  - left. unfold like. rewrite E, flag_F. cbn [strides new_array]. destruct (dims l); [easy|reflexivity].
  - rewrite E. destruct (dims l); [easy|reflexivity].
  - intros idx V. rewrite E, flag_F. now apply offset_F.
Qed.
