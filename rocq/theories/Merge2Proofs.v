From Verif Require Import Base MemLemmas MergeModel MergeSpec MergeProofs.
Local Open Scope Z_scope.

(** ** BooleanToFancy *)

Definition zidx (cast : Z -> Z) (P : nat -> bool) (p : nat * nat) : list Z :=
  map (fun i => cast (Z.of_nat i)) (filter P (seq (fst p) (snd p))).

Lemma btf_loop_spec mb cast both n : forall i0 po pof,
  Permutation (btf_loop mb cast both n (Z.of_nat i0) po pof)
    (enum 1 po (zidx cast (mask_true mb 1) (i0, n)) ++
     if both then enum 1 pof (zidx cast (fun i => negb (mask_true mb 1 i)) (i0, n)) else []).
Proof.
  unfold zidx. cbn [fst snd].
  induction n as [|n IH]; intros i0 po pof; cbn [btf_loop seq filter].
  - destruct both; constructor.
  - replace (Z.of_nat i0 + 1) with (Z.of_nat (S i0)) by lia.
    assert (E : mask_true mb 1 i0 = negb (mb (Z.of_nat i0) =? 0)) by (unfold mask_true; do 3 f_equal; lia).
    rewrite E. destruct (mb (Z.of_nat i0) =? 0); cbn [negb map enum app].
    + destruct both.
      * rewrite (IH _ _ _). cbn [map enum]. apply Permutation_middle.
      * apply IH.
    + constructor. apply IH.
Qed.

Lemma Permutation_concat_app {B C} (f g : B -> list C) (h : B -> list C) l :
  (forall x, Permutation (h x) (f x ++ g x)) ->
  Permutation (concat (map h l)) (concat (map f l) ++ concat (map g l)).
Proof.
  intros H. induction l as [|x l IH]; simpl; auto.
  rewrite (H x), IH. rewrite <- !app_assoc. apply Permutation_app_head.
  rewrite !app_assoc. apply Permutation_app_tail. apply Permutation_app_comm.
Qed.

Lemma zidx_concat cast P c len : (0 < c)%nat -> concat (map (zidx cast P) (chunks c len)) = zidx cast P (0%nat, len).
Proof.
  intros Hc. unfold zidx. cbn [fst snd]. rewrite <- (chunks_seq c len Hc).
  induction (chunks c len) as [|p l IH]; simpl; auto. rewrite filter_app, map_app, IH. reflexivity.
Qed.

Lemma zidx_length cast P p : length (zidx cast P p) = countb P (seq (fst p) (snd p)).
Proof. unfold zidx. now rewrite map_length, countb_length_filter. Qed.

Lemma countb_negb {B} (P : B -> bool) l : (countb P l + countb (fun i => negb (P i)) l = length l)%nat.
Proof. induction l as [|x l IH]; simpl; auto. destruct (P x); simpl; lia. Qed.

Lemma zidx_cast len P : Z.of_nat len <= 2 ^ 63 ->
  zidx (btf_cast len) P (0%nat, len) = map Z.of_nat (filter P (seq 0 len)).
Proof.
  intros Hl. unfold zidx. cbn [fst snd]. apply map_ext_in. intros i Hi. apply filter_In in Hi as [Hi _].
  apply in_seq in Hi. unfold btf_cast. destruct (Z.ltb_spec (Z.of_nat len) 2000000000); auto.
  apply wrap_id; [lia|]. change (2 ^ (32 - 1)) with 2147483648. lia.
Qed.

Lemma enum_app1 {A} (l1 l2 : list A) o o2 : o2 = o + Z.of_nat (length l1) -> enum 1 o l1 ++ enum 1 o2 l2 = enum 1 o (l1 ++ l2).
Proof. intros ->. rewrite enum_app. f_equal. f_equal. lia. Qed.

Lemma boolean_to_fancy ord1 ord2 thr c mb len both junk d :
  fair ord1 -> fair ord2 -> bytes mb -> (0 < c)%nat -> (thr = true -> (0 < len)%nat) -> Z.of_nat len <= 2 ^ 63 ->
  BooleanToFancy ord1 ord2 thr c mb 1 len both junk d =
    Some (map Z.of_nat (true_positions mb 1 len ++ if both then false_positions mb 1 len else []),
          Z.of_nat (length (true_positions mb 1 len))).
Proof.
  intros Hf1 Hf2 Hb Hc Ht Hl. unfold BooleanToFancy.
  set (P := mask_true mb 1). set (N := fun i => negb (P i)).
  assert (Hlen : (length (filter P (seq 0 len)) + length (filter N (seq 0 len)) = len)%nat).
  { rewrite <- !countb_length_filter. unfold N. rewrite countb_negb. apply seq_length. }
  assert (Hspec : forall total (ws : list (Z * Z)), total = Z.of_nat (length (filter P (seq 0 len))) ->
     Permutation ws (enum 1 0 (zidx (btf_cast len) P (0%nat, len)) ++
                     if both then enum 1 total (zidx (btf_cast len) N (0%nat, len)) else []) ->
     writes (ord2 _ ws) (repeat d (if both then len else Z.to_nat total)) =
       Some (map Z.of_nat (true_positions mb 1 len ++ if both then false_positions mb 1 len else []))).
  { intros total ws -> HP. apply writes_enum.
    - rewrite (Hf2 _ _), HP. rewrite !zidx_cast by auto. unfold true_positions, false_positions. fold P. fold N.
      destruct both.
      + rewrite enum_app1 by (rewrite map_length; lia). rewrite map_app. reflexivity.
      + rewrite !app_nil_r. reflexivity.
    - rewrite repeat_length, map_length. unfold true_positions, false_positions. fold P. fold N.
      destruct both; [rewrite app_length; lia|rewrite app_nil_r; lia]. }
  destruct thr.
  - rewrite BooleanCount_threaded by auto. fold P.
    assert (Lp : length (piece_counts P (chunks c len)) = length (chunks c len)) by (unfold piece_counts; apply map_length).
    rewrite (firstn_all2 (n := length (chunks c len))) by (now rewrite Lp).
    rewrite countb_seq_pieces by auto. rewrite countb_length_filter.
    rewrite (Hspec _ _ eq_refl).
    + unfold true_positions. reflexivity.
    + unfold chunk_calls.
      rewrite (Permutation_concat_app
         (fun p => enum 1 (0 + nth (fst p / c) (excl 0 (piece_counts P (chunks c len))) 0 * 1) (zidx (btf_cast len) P p))
         (fun p => if both then enum 1 (Z.of_nat (length (filter P (seq 0 len))) +
             nth (fst p / c) (excl 0 (map (fun x => Z.of_nat c - x) (firstn ((len + (c - 1)) / c) (piece_counts P (chunks c len))))) 0 * 1)
              (zidx (btf_cast len) N p) else [])).
      2:{ intros [s l]. unfold btf_callback. cbn [fst snd]. rewrite Z.add_0_l, !Z.mul_1_r. apply btf_loop_spec. }
      rewrite chunk_offsets; auto.
      2:{ f_equal. unfold piece_counts. apply map_ext. intros p. now rewrite zidx_length. }
      rewrite zidx_concat by auto. apply Permutation_app_head.
      destruct both.
      * rewrite chunk_offsets; auto. { rewrite zidx_concat; auto. }
        apply excl_ext.
        -- rewrite !map_length, firstn_length, Lp, chunks_length. lia.
        -- intros i Hi. rewrite map_length, firstn_length, Lp, chunks_length in Hi.
           rewrite firstn_all2 by (rewrite Lp, chunks_length; lia).
           unfold piece_counts. rewrite !nth_error_map.
           destruct (nth_error (chunks c len) i) as [[s l]|] eqn:E; auto. cbn [option_map fst snd]. f_equal.
           rewrite zidx_length. cbn [fst snd].
           apply chunks_nth in E as (-> & -> & _).
           assert (Hfull : (S i * c < len)%nat).
           { assert (H2 : (c * ((len + (c - 1)) / c) <= len + (c - 1))%nat) by (apply Nat.mul_div_le; lia). nia. }
           rewrite Nat.min_l by nia.
           assert (HN := countb_negb P (seq (i * c) c)). rewrite seq_length in HN. fold N in HN. lia.
      * replace (concat (map _ (chunks c len))) with (@nil (Z * Z)); auto.
        induction (chunks c len); simpl; auto.
  - destruct (BooleanCount_single ord1 c mb 1 len junk Hf1 Hb Hc) as (rest & -> & _).
    cbn [firstn]. change (zsum [?x]) with (x + 0). rewrite Z.add_0_r. fold P. rewrite countb_length_filter.
    rewrite (Hspec _ _ eq_refl).
    + unfold true_positions. reflexivity.
    + unfold chunk_calls. cbn [map concat]. rewrite app_nil_r. unfold btf_callback. cbn [fst snd].
      rewrite Nat.div_0_l by lia. cbn [excl nth].
      match goal with |- context [nth 0 ?l 0] => replace (nth 0 l 0) with 0 end.
      2:{ destruct ((len + (c - 1)) / c)%nat; reflexivity. }
      rewrite Z.add_0_r. apply (btf_loop_spec mb (btf_cast len) both len 0).
Qed.

(** ** MBGet *)

Section GetItem.
  Context {A : Type} (vals : list A) (dflt : A).

  Lemma nth_oob {B} (l : list B) n d : (length l <= n)%nat -> nth n l d = d.
  Proof. apply nth_overflow. Qed.

  Lemma get_signed_spec i : get_signed vals dflt i = Some (py_get vals dflt i).
  Proof.
    unfold get_signed, py_get, vlen. set (n := Z.of_nat (length vals)).
    destruct (Z.leb_spec (- n) i) as [H1|H1], (Z.ltb_spec i n) as [H2|H2]; cbn [andb];
      destruct (Z.leb_spec 0 i) as [H3|H3]; try lia.
    - rewrite zrd_some by lia. apply nth_error_nth'. lia.
    - rewrite zrd_some by lia. apply nth_error_nth'. lia.
    - rewrite nth_oob by lia. auto.
    - auto.
  Qed.

  Lemma get_unsigned_spec i : 0 <= i -> get_unsigned vals dflt i = Some (py_get vals dflt i).
  Proof.
    intros H. unfold get_unsigned, py_get, vlen. rewrite (proj2 (Z.leb_le 0 i)) by auto. cbn [andb].
    destruct (Z.ltb_spec i (Z.of_nat (length vals))).
    - rewrite zrd_some by lia. apply nth_error_nth'. lia.
    - rewrite nth_oob by lia. auto.
  Qed.

  Lemma get_loop_spec (get : Z -> option A) (f : Z -> A) idx : (forall i, In i idx -> get i = Some (f i)) ->
    forall step po, get_loop get step po idx = Some (enum step po (map f idx)).
  Proof.
    induction idx as [|i idx IH]; intros H step po; simpl; auto.
    rewrite H by (simpl; auto). rewrite IH by (intros; apply H; simpl; auto). reflexivity.
  Qed.

  Lemma collect_some {B} (fs : list (list B)) : collect (map Some fs) = Some (concat fs).
  Proof. induction fs as [|x l IH]; simpl; auto. now rewrite IH. Qed.

  Lemma slice_seq {B} (l : list B) (d : B) s n : (s + n <= length l)%nat -> slice l s n = map (fun i => nth i l d) (seq s n).
  Proof.
    intros H. unfold slice. apply list_ext. intros i. rewrite nth_error_firstn, nth_error_skipn, nth_error_map, nth_error_seq.
    destruct (Nat.ltb_spec i n); simpl; auto. apply nth_error_nth'. lia.
  Qed.

  Lemma get_run_spec t isz po idx : 0 < itBits t -> (forall i, In i idx -> index_in_range (itUnsigned t) (itBits t) i) ->
    (itUnsigned t = true -> fixed_size isz = true) ->
    get_run vals dflt t isz po idx = Some (enum isz po (map (py_get vals dflt) idx)).
  Proof.
    intros Hb Hok Hfix. unfold get_run.
    assert (E : map (read_index t) idx = idx).
    { rewrite <- (map_id idx) at 2. apply map_ext_in. intros i Hi. specialize (Hok i Hi). unfold index_in_range in Hok.
      unfold read_index. apply wrap_id; auto. assert (0 < 2 ^ (itBits t - 1)) by (apply Z.pow_pos_nonneg; lia).
      destruct (itUnsigned t); lia. }
    rewrite E. destruct (itUnsigned t) eqn:Eu.
    - rewrite Hfix by auto. apply get_loop_spec. intros i Hi. apply get_unsigned_spec.
      specialize (Hok i Hi). unfold index_in_range in Hok. lia.
    - apply get_loop_spec. intros i Hi. apply get_signed_spec.
  Qed.

  Lemma mbget ord thr c t isz sv idx d : fair ord -> (0 < c)%nat -> 0 < itBits t -> 0 < isz ->
    (forall i, In i idx -> index_in_range (itUnsigned t) (itBits t) i) ->
    (itUnsigned t = true -> fixed_size isz = true) ->
    (thr = true -> sv = isz) ->
    MBGet vals dflt ord thr c t isz sv idx d = Some (map (py_get vals dflt) idx).
  Proof.
    intros Hf Hc Hb Hs Hok Hfix Hsv. unfold MBGet.
    assert (Hin : forall s n i, In i (slice idx s n) -> In i idx).
    { intros s n i H. unfold slice in H. rewrite <- (firstn_skipn s idx). apply in_or_app. right.
      rewrite <- (firstn_skipn n (skipn s idx)). apply in_or_app. now left. }
    set (piece := fun p : nat * nat => map (py_get vals dflt) (slice idx (fst p) (snd p))).
    assert (Hrun : forall p, get_run vals dflt t isz (if thr then Z.of_nat (fst p) * sv else 0) (slice idx (fst p) (snd p)) =
       Some (enum isz (if thr then Z.of_nat (fst p) * isz else 0) (piece p))).
    { intros p. rewrite get_run_spec; eauto. destruct thr; auto. rewrite Hsv by auto. reflexivity. }
    rewrite (map_ext _ _ Hrun). rewrite <- (map_map (fun p => enum isz (if thr then Z.of_nat (fst p) * isz else 0) (piece p)) Some).
    rewrite collect_some. apply item_writes_enum; auto; [|rewrite repeat_length, map_length; auto].
    rewrite (Hf _ _). destruct thr; unfold chunk_calls.
    - assert (Hpiece : forall p, In p (chunks c (length idx)) -> Z.of_nat (length (piece p)) = Z.of_nat (snd p)).
      { intros [s n] Hp. apply chunks_in in Hp; auto. unfold piece. cbn [fst snd]. rewrite map_length. unfold slice.
        rewrite firstn_length, skipn_length. lia. }
      rewrite (map_ext_in _ (fun p => enum isz (0 + nth (fst p / c) (excl 0 (map (fun q => Z.of_nat (length (piece q))) (chunks c (length idx)))) 0 * isz) (piece p))).
      + rewrite chunk_offsets by auto.
        assert (Hcat : concat (map piece (chunks c (length idx))) = map (py_get vals dflt) idx).
        { assert (H := chunks_map (fun i => [py_get vals dflt (nth i idx 0)]) c (length idx) Hc).
          rewrite (map_ext_in _ piece) in H.
          - rewrite H. assert (Hone : forall l, concat (map (fun i => [py_get vals dflt (nth i idx 0)]) l) = map (fun i => py_get vals dflt (nth i idx 0)) l).
            { induction l; simpl; congruence. }
            rewrite Hone. rewrite <- (map_map (fun i => nth i idx 0) (py_get vals dflt)). f_equal.
            rewrite <- (slice_seq idx 0 0 (length idx)) by lia. unfold slice. cbn [skipn]. apply firstn_all.
          - intros [s n] Hp. apply chunks_in in Hp; auto. unfold piece. cbn [fst snd].
            rewrite (slice_seq idx 0) by lia. rewrite map_map.
            generalize (seq s n). induction l; simpl; congruence. }
        rewrite Hcat. reflexivity.
      + intros [s n] Hp. cbn [fst]. f_equal.
        apply In_nth_error in Hp as (b & Hp). assert (Hb' := nth_error_Some_lt _ _ _ Hp).
        assert (Hp' := Hp). apply chunks_nth in Hp' as (-> & _ & _). rewrite Nat.div_mul by lia.
        rewrite (map_ext_in _ _ _ Hpiece).
        rewrite (nth_error_nth _ _ _ (excl_nth (map (fun p : nat * nat => Z.of_nat (snd p)) (chunks c (length idx))) 0 b ltac:(now rewrite map_length))).
        rewrite Z.add_0_l. f_equal.
        (* the first b chunks are full *)
        assert (Hsum : forall k, (k < length (chunks c (length idx)))%nat ->
           zsum (firstn k (map (fun p => Z.of_nat (snd p)) (chunks c (length idx)))) = Z.of_nat (k * c)).
        { induction k as [|k IHk]; intros Hk; [reflexivity|].
          destruct (nth_error_lt (chunks c (length idx)) k ltac:(lia)) as [[s2 n2] E].
          rewrite (firstn_S_snoc _ _ (Z.of_nat n2)) by (rewrite nth_error_map, E; reflexivity).
          rewrite zsum_app, IHk by lia. apply chunks_nth in E as (-> & -> & _).
          rewrite chunks_length in Hk.
          assert (H2 : (c * ((length idx + (c - 1)) / c) <= length idx + (c - 1))%nat) by (apply Nat.mul_div_le; lia).
          unfold zsum; simpl. rewrite Nat.min_l by nia. lia. }
        rewrite Hsum by auto. lia.
    - cbn [map concat]. rewrite app_nil_r. unfold piece, slice. cbn [fst snd skipn]. rewrite firstn_all. reflexivity.
  Qed.
End GetItem.

(** ** ReverseShuffle *)

Lemma rs_concat w inp thr c : (0 < c)%nat ->
  concat (map (rs_callback w inp) (chunk_calls thr c (length inp))) = rs_callback w inp (0%nat, length inp).
Proof.
  intros Hc. unfold rs_callback, chunk_calls. destruct thr.
  - rewrite chunks_map by auto. reflexivity.
  - cbn [map concat fst snd]. now rewrite app_nil_r.
Qed.

Lemma rs_in w inp i v : In (i, v) (rs_callback w inp (0%nat, length inp)) ->
  exists k, nth_error inp k = Some i /\ v = wrap w (Z.of_nat k) /\ 0 <= i < Z.of_nat (length inp).
Proof.
  unfold rs_callback. cbn [fst snd]. rewrite in_concat. intros (l & Hl & Hin). apply in_map_iff in Hl as (k & <- & Hk).
  apply in_seq in Hk. destruct (Z.leb_spec 0 (nth k inp 0)), (Z.ltb_spec (nth k inp 0) (Z.of_nat (length inp))); simpl in Hin; try contradiction.
  destruct Hin as [E|[]]. inversion E; subst. exists k. split; [|lia]. apply nth_error_nth'. lia.
Qed.

Lemma reverse_shuffle_safe ord thr c w inp d : fair ord -> (0 < c)%nat ->
  exists out, ReverseShuffle ord thr c w inp d = Some out /\ length out = length inp.
Proof.
  intros Hf Hc. unfold ReverseShuffle. rewrite rs_concat by auto.
  destruct (writes_total (ord _ (rs_callback w inp (0%nat, length inp))) (repeat d (length inp))) as (o & E & L).
  - intros i v H. apply (Permutation_in _ (Hf _ _)) in H. apply rs_in in H as (k & _ & _ & H). rewrite repeat_length. lia.
  - exists o. rewrite repeat_length in L. auto.
Qed.

Lemma reverse_shuffle_inverse ord thr c w inp d : fair ord -> (0 < c)%nat -> 0 < w -> Z.of_nat (length inp) <= 2 ^ (w - 1) ->
  Permutation inp (map Z.of_nat (seq 0 (length inp))) ->
  exists out, ReverseShuffle ord thr c w inp d = Some out /\ length out = length inp /\
    (forall i x, nth_error inp i = Some x -> nth_error out (Z.to_nat x) = Some (Z.of_nat i)) /\
    (forall j y, nth_error out j = Some y -> nth_error inp (Z.to_nat y) = Some (Z.of_nat j)).
Proof.
  intros Hf Hc Hw Hn HP. destruct (reverse_shuffle_safe ord thr c w inp d Hf Hc) as (out & E & L).
  exists out. split; auto. split; auto.
  assert (Hrange : forall i x, nth_error inp i = Some x -> 0 <= x < Z.of_nat (length inp)).
  { intros i x H. apply nth_error_In in H. apply (Permutation_in _ HP) in H. apply in_map_iff in H as (k & <- & H).
    apply in_seq in H. lia. }
  assert (ND : NoDup inp).
  { eapply Permutation_NoDup; [apply Permutation_sym; exact HP|]. apply FinFun.Injective_map_NoDup; [|apply seq_NoDup].
    intros a b; apply Nat2Z.inj. }
  assert (F : forall i x, nth_error inp i = Some x -> nth_error out (Z.to_nat x) = Some (Z.of_nat i)).
  { intros i x Hx. unfold ReverseShuffle in E. rewrite rs_concat in E by auto.
    assert (Hws : rs_callback w inp (0%nat, length inp) = map (fun k => (nth k inp 0, Z.of_nat k)) (seq 0 (length inp))).
    { unfold rs_callback. cbn [fst snd].
      assert (G : forall l, (forall k, In k l -> (k < length inp)%nat) ->
        concat (map (fun i => let index := nth i inp 0 in if (0 <=? index) && (index <? Z.of_nat (length inp)) then [(index, wrap w (Z.of_nat i))] else []) l)
        = map (fun k => (nth k inp 0, Z.of_nat k)) l).
      { induction l as [|k l IH]; intros H; simpl; auto.
        assert (Hk : (k < length inp)%nat) by (apply H; simpl; auto).
        assert (R := Hrange k (nth k inp 0) (nth_error_nth' _ _ Hk)).
        rewrite (proj2 (Z.leb_le _ _)), (proj2 (Z.ltb_lt _ _)) by lia. simpl.
        rewrite wrap_id by lia. f_equal. apply IH. intros; apply H; simpl; auto. }
      apply G. intros k Hk. apply in_seq in Hk. lia. }
    rewrite Hws in E.
    set (ws := map (fun k => (nth k inp 0, Z.of_nat k)) (seq 0 (length inp))) in *.
    assert (NDw : NoDup (map fst (ord _ ws))).
    { eapply Permutation_NoDup; [apply Permutation_map, Permutation_sym, Hf|].
      unfold ws. rewrite map_map. cbn [fst].
      replace (map (fun x => nth x inp 0) (seq 0 (length inp))) with inp; auto.
      rewrite <- (slice_seq inp 0 0 (length inp)) by lia. unfold slice. cbn [skipn]. symmetry. apply firstn_all. }
    assert (R := Hrange i x Hx).
    rewrite (writes_read _ _ _ NDw E). rewrite Z2Nat.id by lia.
    assert (Hin : In (x, Z.of_nat i) (ord _ ws)).
    { apply (Permutation_in _ (Permutation_sym (Hf _ _))). unfold ws. apply in_map_iff. exists i.
      split; [f_equal; now apply nth_error_nth|]. apply in_seq. apply nth_error_Some_lt in Hx. lia. }
    destruct (find _ (ord _ ws)) as [[k y]|] eqn:Fd.
    - apply find_some in Fd as [F1 F2]. cbn [fst snd] in *. apply Z.eqb_eq in F2. subst k.
      apply (Permutation_in _ (Hf _ _)) in F1. unfold ws in F1. apply in_map_iff in F1 as (k & Ek & Hk). inversion Ek; subst.
      f_equal. f_equal. apply in_seq in Hk. apply (proj1 (NoDup_nth_error inp) ND); [lia|].
      rewrite Hx. apply nth_error_nth'. lia.
    - exfalso. eapply find_none in Fd; [|exact Hin]. cbn [fst] in Fd. rewrite Z.eqb_refl in Fd. discriminate. }
  split; [exact F|].
  intros j y Hy.
  assert (Hj : (j < length inp)%nat) by (apply nth_error_Some_lt in Hy; lia).
  assert (In (Z.of_nat j) inp).
  { apply (Permutation_in _ (Permutation_sym HP)). apply in_map. apply in_seq. lia. }
  apply In_nth_error in H as (i & Hi). assert (F' := F _ _ Hi). rewrite Nat2Z.id, Hy in F'. inversion F'; subst.
  now rewrite Nat2Z.id.
Qed.

(** ** ReIndexGroups *)

Lemma ri_loop_spec w ukey start n : 0 <= start -> forall j ikey, 0 <= j -> j + Z.of_nat n <= Z.of_nat (length ikey) ->
  exists ikey', ri_loop w ukey start n j ikey = Some ikey' /\ length ikey' = length ikey /\
    forall i, nth_error ikey' i =
      if (j <=? Z.of_nat i) && (Z.of_nat i <? j + Z.of_nat n)
      then option_map (remapped w ukey start) (nth_error ikey i) else nth_error ikey i.
Proof.
  intros Hs. induction n as [|n IH]; intros j ikey Hj Hn; cbn [ri_loop].
  - exists ikey. repeat split; auto. intros i.
    destruct (Z.leb_spec j (Z.of_nat i)), (Z.ltb_spec (Z.of_nat i) (j + Z.of_nat 0)); simpl; auto; lia.
  - rewrite zrd_some by auto. destruct (nth_error_lt ikey (Z.to_nat j) ltac:(lia)) as [index Hx]. rewrite Hx.
    assert (Ev : (if (index <=? 0) || (Z.max 0 (Z.of_nat (length ukey) - start) <? index) then Some 0
        else match zrd ukey (start + (index - 1)) with Some u => Some (wrap w u) | None => None end) = Some (remapped w ukey start index)).
    { unfold remapped. destruct (Z.leb_spec index 0), (Z.ltb_spec (Z.max 0 (Z.of_nat (length ukey) - start)) index); cbn [orb]; auto.
      rewrite zrd_some by lia. rewrite (nth_error_nth' ukey 0) by lia. reflexivity. }
    rewrite Ev. rewrite zwr_some by lia.
    destruct (IH (j + 1) (upd ikey (Z.to_nat j) (remapped w ukey start index)) ltac:(lia)) as (ikey' & E & L & R).
    { rewrite length_upd. lia. }
    exists ikey'. rewrite length_upd in L. repeat split; auto.
    intros i. rewrite R.
    destruct (Z.eq_dec (Z.of_nat i) j) as [Hi|Hi].
    + replace (j + 1 <=? Z.of_nat i) with false by (symmetry; apply Z.leb_gt; lia). cbn [andb].
      rewrite (proj2 (Z.leb_le _ _)), (proj2 (Z.ltb_lt _ _)) by lia. cbn [andb].
      assert (Z.to_nat j = i) by lia. rewrite H in *. rewrite nth_error_upd_eq by lia. now rewrite Hx.
    + rewrite nth_error_upd_neq by lia.
      replace (j + 1 <=? Z.of_nat i) with (j <=? Z.of_nat i).
      * replace (j + 1 + Z.of_nat n) with (j + Z.of_nat (S n)) by lia. reflexivity.
      * destruct (Z.leb_spec j (Z.of_nat i)), (Z.leb_spec (j + 1) (Z.of_nat i)); auto; lia.
Qed.

Lemma ri_all w ukey ucut icut order : NoDup order ->
  (forall t, In t order -> (t < length icut)%nat) ->
  (forall t, 0 <= part_lo ucut t) ->
  (forall a b, (a <= b < length icut)%nat -> nth a icut 0 <= nth b icut 0) ->
  forall ikey,
  (forall t, (t < length icut)%nat -> 0 <= nth t icut 0 <= Z.of_nat (length ikey)) ->
  exists ikey', ReIndexGroups w ukey ucut icut order ikey = Some ikey' /\ length ikey' = length ikey /\
    (forall t i, In t order -> part_lo icut t <= Z.of_nat i < nth t icut 0 ->
       nth_error ikey' i = option_map (remapped w ukey (part_lo ucut t)) (nth_error ikey i)) /\
    (forall i, (forall t, In t order -> ~ part_lo icut t <= Z.of_nat i < nth t icut 0) ->
       nth_error ikey' i = nth_error ikey i).
Proof.
  intros ND Hord Hu Hmono. induction order as [|t order IH]; intros ikey Hr; cbn [ReIndexGroups].
  { exists ikey. split; auto. split; auto. split; auto. intros t i []. }
  inversion ND as [|? ? Hnt ND']; subst.
  assert (Ht : (t < length icut)%nat) by (apply Hord; simpl; auto).
  unfold ri_part. fold (part_lo icut t). fold (part_lo ucut t).
  assert (Hlo : 0 <= part_lo icut t <= nth t icut 0).
  { unfold part_lo. destruct t; [specialize (Hr 0%nat Ht); lia|]. split; [apply Hr; lia|apply Hmono; lia]. }
  destruct (ri_loop_spec w ukey (part_lo ucut t) (Z.to_nat (nth t icut 0 - part_lo icut t)) (Hu t) (part_lo icut t) ikey)
    as (k1 & E1 & L1 & R1); [lia| specialize (Hr t Ht); lia |].
  rewrite E1. rewrite Z2Nat.id in R1 by lia.
  destruct (IH ND' (fun t' H => Hord t' (or_intror H)) k1) as (k2 & E2 & L2 & R2 & R3).
  { intros t' Ht'. rewrite L1. auto. }
  exists k2. rewrite E2. split; auto. split; [lia|].
  assert (Hdis : forall t' i, t' <> t -> (t' < length icut)%nat -> part_lo icut t' <= Z.of_nat i < nth t' icut 0 ->
      ~ part_lo icut t <= Z.of_nat i < nth t icut 0).
  { intros t' i Hne Ht' H1 H2. destruct (Nat.lt_total t' t) as [Hl|[Hl|Hl]]; [|contradiction|].
    - destruct t as [|t0]; [lia|]. unfold part_lo in H2. assert (M := Hmono t' t0 ltac:(lia)). lia.
    - destruct t' as [|t0]; [lia|]. unfold part_lo in H1. assert (M := Hmono t t0 ltac:(lia)). lia. }
  assert (Hin : forall i, part_lo icut t <= Z.of_nat i < nth t icut 0 ->
      nth_error k1 i = option_map (remapped w ukey (part_lo ucut t)) (nth_error ikey i)).
  { intros i Hi. rewrite R1. rewrite (proj2 (Z.leb_le _ _)), (proj2 (Z.ltb_lt _ _)) by lia. reflexivity. }
  assert (Hout : forall i, ~ part_lo icut t <= Z.of_nat i < nth t icut 0 -> nth_error k1 i = nth_error ikey i).
  { intros i Hi. rewrite R1.
    destruct (Z.leb_spec (part_lo icut t) (Z.of_nat i)), (Z.ltb_spec (Z.of_nat i) (part_lo icut t + (nth t icut 0 - part_lo icut t)));
      simpl; auto; lia. }
  split.
  - intros t' i [<-|Hin'] Hi.
    + rewrite R3; [now apply Hin|]. intros t' Ht' Hbad.
      assert (t' <> t) by (intros ->; auto). assert (Hlt := Hord t' (or_intror Ht')).
      eapply (Hdis t' i); eauto.
    + rewrite (R2 t' i Hin' Hi). rewrite Hout; auto.
      assert (t' <> t) by (intros ->; auto). assert (Hlt := Hord t' (or_intror Hin')). eapply (Hdis t' i); eauto.
  - intros i Hi. rewrite R3; [|intros t' Ht'; apply Hi; simpl; auto]. apply Hout. apply Hi. simpl; auto.
Qed.

(** Every order of the partitions; cut-offs as produced by stacking. *)
Lemma reindex_groups w ukey ucut icut order ikey :
  Permutation order (seq 0 (length icut)) ->
  (forall t, 0 <= part_lo ucut t) ->
  (forall a b, (a <= b < length icut)%nat -> nth a icut 0 <= nth b icut 0) ->
  (forall t, (t < length icut)%nat -> 0 <= nth t icut 0 <= Z.of_nat (length ikey)) ->
  exists ikey', ReIndexGroups w ukey ucut icut order ikey = Some ikey' /\ length ikey' = length ikey /\
    (forall t i, (t < length icut)%nat -> part_lo icut t <= Z.of_nat i < nth t icut 0 ->
       nth_error ikey' i = option_map (remapped w ukey (part_lo ucut t)) (nth_error ikey i)) /\
    (forall i, (forall t, (t < length icut)%nat -> nth t icut 0 <= Z.of_nat i) -> nth_error ikey' i = nth_error ikey i).
Proof.
  intros HP Hu Hm Hr.
  destruct (ri_all w ukey ucut icut order) with (ikey := ikey) as (k & E & L & R1 & R2); auto.
  - eapply Permutation_NoDup; [apply Permutation_sym; eauto|]. apply seq_NoDup.
  - intros t Ht. apply (Permutation_in _ HP) in Ht. apply in_seq in Ht. lia.
  - exists k. split; auto. split; auto. split.
    + intros t i Ht Hi. apply R1; auto. apply (Permutation_in _ (Permutation_sym HP)). apply in_seq. lia.
    + intros i Hi. apply R2. intros t Ht Hb. apply (Permutation_in _ HP) in Ht. apply in_seq in Ht.
      specialize (Hi t ltac:(lia)). lia.
Qed.

(** ** Witnesses *)

Lemma boolean_index_bad :
  exists mb (vb : Z -> Z) isz sv len, bytes mb /\ 0 < isz /\
    forall junk d, BooleanIndex mb vb in_order in_order false CHUNK isz 1 sv len junk d = None.
Proof.
  exists (fun _ => 1), (fun p => p), 3, 6, 2%nat. split; [intros p; lia|]. split; [lia|]. intros. vm_compute. reflexivity.
Qed.

Lemma boolean_to_fancy_bad :
  exists mb sb len, bytes mb /\
    forall junk d, exists r, BooleanToFancy in_order in_order false CHUNK mb sb len false junk d = Some r /\
      fst r <> map Z.of_nat (true_positions mb sb len).
Proof.
  exists (fun p => if p =? 2 then 1 else 0), 2, 3%nat.
  split; [intros p; destruct (p =? 2); lia|].
  intros junk d. eexists. split; [vm_compute; reflexivity|]. vm_compute. discriminate.
Qed.

Lemma mbget_bad_unsigned :
  exists (vals : list Z) dflt i,
    fits_unsigned 8 i /\ 0 <= i < Z.of_nat (length vals) /\
    MBGet vals dflt in_order false CHUNK (mkIT 8 true) 8 8 [i] 0 = Some [dflt] /\ py_get vals dflt i <> dflt.
Proof.
  exists (repeat 1 250), 0, 200. split; [unfold fits_unsigned; lia|]. split; [rewrite repeat_length; lia|].
  split; [vm_compute; reflexivity|vm_compute; discriminate].
Qed.

Lemma mbget_bad_strings :
  exists (vals : list Z) dflt i, fits_unsigned 32 i /\ 0 <= i < Z.of_nat (length vals) /\
    MBGet vals dflt in_order false CHUNK (mkIT 32 true) 5 5 [i] 0 = None.
Proof. exists [1; 2], 0, 1. split; [unfold fits_unsigned; lia|]. split; [simpl; lia|]. vm_compute. reflexivity. Qed.

Lemma mbget_bad_stride :
  exists (vals idx : list Z) dflt c sv,
    (forall i, In i idx -> 0 <= i < Z.of_nat (length vals)) /\
    MBGet vals dflt in_order true c (mkIT 32 false) 8 sv idx 0 = None.
Proof.
  exists [1], [0; 0; 0; 0], 0, 2%nat, 16. split; [|vm_compute; reflexivity].
  intros i H. assert (i = 0) by (simpl in H; lia). subst. simpl. lia.
Qed.

Lemma reindex_bad :
  exists ukey ucut icut ikey t i key, (t < length icut)%nat /\ part_lo icut t <= Z.of_nat i < nth t icut 0 /\
    nth_error ikey i = Some key /\ nth t ucut 0 - part_lo ucut t < key /\
    exists r u, ReIndexGroups 32 ukey ucut icut (seq 0 (length icut)) ikey = Some r /\
    nth_error r i = Some u /\ u <> 0.
Proof.
  exists [1; 2; 3; 4], [2; 4], [1; 2], [3; 1], 0%nat, 0%nat, 3.
  split; [simpl; lia|]. split; [simpl; lia|]. split; [reflexivity|]. split; [simpl; lia|].
  exists [3; 3], 3. split; [vm_compute; reflexivity|]. split; [reflexivity|lia].
Qed.
