(** Proofs about the functions on packed groups: the layout, one result per bin, bands. *)
From Verif Require Import Base Mem MemLemmas Num GroupModel GroupSpec GroupProofs AccumSpec GrpxModel GrpxSpec.
Local Open Scope Z_scope.

(** ** Writes to distinct positions *)
Lemma writes_distinct {A} (ws : list (Z * A)) out :
  NoDup (map fst ws) -> (forall i x, In (i, x) ws -> 0 <= i < Z.of_nat (length out)) ->
  exists res, writes ws out = Some res /\ length res = length out /\
    (forall i x, In (i, x) ws -> nth_error res (Z.to_nat i) = Some x) /\
    (forall i, ~ In (Z.of_nat i) (map fst ws) -> nth_error res i = nth_error out i).
Proof.
  intros ND Hr. destruct (writes_total ws out Hr) as (res & E & L). exists res. split; auto. split; auto. split.
  - intros i x Hi. rewrite (writes_read ws out res ND E). pose proof (Hr i x Hi) as Hb.
    destruct (find _ ws) as [[i' x']|] eqn:Ef.
    + apply find_some in Ef as [Hin Heq]. simpl in Heq. assert (i' = i) by lia. subst i'. simpl. f_equal.
      clear - ND Hi Hin. induction ws as [|[a b] ws IH]; simpl in *; [tauto|]. inversion ND as [|? ? Hn ND']; subst.
      destruct Hi as [Hi|Hi], Hin as [Hin|Hin]; try congruence; auto.
      * inversion Hi; subst. exfalso. apply Hn. apply (in_map fst) in Hin. exact Hin.
      * inversion Hin; subst. exfalso. apply Hn. apply (in_map fst) in Hi. exact Hi.
    + exfalso. apply (find_none _ _ Ef) in Hi. simpl in Hi. lia.
  - intros i Hi. rewrite (writes_read ws out res ND E).
    destruct (find _ ws) as [[i' x']|] eqn:Ef; auto.
    apply find_some in Ef as [Hin Heq]. simpl in Heq. exfalso. apply Hi. apply (in_map fst) in Hin. simpl in Hin.
    replace (Z.of_nat i) with i' by lia. exact Hin.
Qed.

(** Writes that are a permutation of each other give the same array. *)
Lemma writes_perm {A} (ws ws' : list (Z * A)) out : NoDup (map fst ws) -> Permutation ws ws' -> 
  (forall i x, In (i, x) ws -> 0 <= i < Z.of_nat (length out)) -> writes ws out = writes ws' out.
Proof.
  intros ND P H.
  destruct (writes_distinct ws out ND H) as (r & E & L & H1 & H2).
  assert (ND' : NoDup (map fst ws')) by (eapply Permutation_NoDup; [apply Permutation_map; exact P|exact ND]).
  destruct (writes_distinct ws' out ND') as (r' & E' & L' & H1' & H2').
  { intros i x Hi. apply (H i x). eapply Permutation_in; [symmetry; exact P|exact Hi]. }
  rewrite E, E'. f_equal. apply list_ext. intros i.
  destruct (in_dec Z.eq_dec (Z.of_nat i) (map fst ws)) as [Hi|Hi].
  - apply in_map_iff in Hi as ([j x] & Ej & Hin). simpl in Ej. subst j.
    specialize (H1 _ _ Hin). rewrite Nat2Z.id in H1. rewrite H1.
    assert (Hin' : In (Z.of_nat i, x) ws') by (eapply Permutation_in; eauto).
    specialize (H1' _ _ Hin'). rewrite Nat2Z.id in H1'. now rewrite H1'.
  - rewrite H2, H2'; auto. intros Hi'. apply Hi. eapply Permutation_in; [apply Permutation_map; symmetry; exact P|exact Hi'].
Qed.

(** ** The layout *)
Lemma group_rows_vals {T} (src0 : list T) g : forall keys src o,
  length src = length keys -> (forall i x, nth_error src i = Some x -> zrd src0 (o + Z.of_nat i) = Some x) ->
  Forall2 (fun r v => zrd src0 r = Some v) (sel g (enum 1 o keys)) (group_vals (combine keys src) g).
Proof.
  induction keys as [|k keys IH]; intros [|x src] o L H; try discriminate; [constructor|].
  unfold sel, group_vals in *. simpl in *.
  assert (R : Forall2 (fun r v => zrd src0 r = Some v) (map fst (filter (fun p => snd p =? g) (enum 1 (o + 1) keys)))
               (map snd (filter (fun p => fst p =? g) (combine keys src)))).
  { apply IH; [lia|]. intros i y Hy. replace (o + 1 + Z.of_nat i) with (o + Z.of_nat (S i)) by lia. now apply H. }
  destruct (k =? g); simpl; auto. constructor; auto. specialize (H 0%nat x eq_refl). now rewrite Z.add_0_r in H.
Qed.

Lemma rows_vals {T} (src : list T) keys g : length src = length keys ->
  Forall2 (fun r v => zrd src r = Some v) (rows_with keys g) (group_vals (combine keys src) g).
Proof.
  intros L. rewrite <- sel_numbered. apply group_rows_vals; auto.
  intros i x H. rewrite zrd_some by lia. now replace (Z.to_nat (0 + Z.of_nat i)) with i by lia.
Qed.

Lemma Forall2_nth {A B} (R : A -> B -> Prop) l r k : Forall2 R l r ->
  match nth_error l k, nth_error r k with Some a, Some b => R a b | None, None => True | _, _ => False end.
Proof. intros H. revert k. induction H; intros [|k]; simpl; auto. exact (IHForall2 k). Qed.

Lemma Forall2_len {A B} (R : A -> B -> Prop) l r : Forall2 R l r -> length l = length r.
Proof. induction 1; simpl; auto. Qed.

Section Layout.
  Context {T : Type} (n : Z) (keys : list Z) (src : list T) (ncount igroup ifirst : list Z).
  Hypothesis lay : layout n keys src ncount igroup ifirst.
  Notation rows g := (rows_with keys g).
  Notation vals g := (group_vals (combine keys src) g).

  Lemma vals_len g : length (vals g) = length (rows g).
  Proof. destruct lay as (L & _ & _). symmetry. eapply Forall2_len. now apply rows_vals. Qed.

  Lemma layout_bin g : 0 <= g < n -> exists f, zrd ifirst g = Some f /\ zrd ncount g = Some (Z.of_nat (length (rows g))) /\ 0 <= f /\
    f + Z.of_nat (length (rows g)) <= Z.of_nat (length igroup) /\
    (forall k, (k < length (rows g))%nat -> zrd igroup (f + Z.of_nat k) = nth_error (rows g) k) /\
    (forall k, (k < length (rows g))%nat -> src_at src igroup (f + Z.of_nat k) = nth_error (vals g) k).
  Proof.
    intros Hg. destruct lay as (L & (HN & Hc) & (Lg & Lf & Hp)). pose proof (Hc g Hg) as Hcg.
    destruct (Hp g Hg) as (f & c & Ef & Ec & Hf & Hs). assert (c = count_of keys g) by congruence. subst c.
    rewrite <- rows_with_length in *.
    assert (F0 : 0 <= f).
    { rewrite Hf. assert (P : forall l, (forall x, In x l -> 0 <= x) -> 0 <= zsum l).
      { induction l as [|x l IH]; simpl; intros H; [lia|]. assert (0 <= x) by auto. assert (0 <= zsum l) by auto. lia. }
      apply P. intros x Hx.
      assert (Hx' : In x ncount). { rewrite <- (firstn_skipn (Z.to_nat g) ncount). apply in_or_app; auto. }
      apply In_nth_error in Hx' as (i & Hi). pose proof (nth_error_Some_lt _ _ _ Hi).
      specialize (Hc (Z.of_nat i)). rewrite Nat2Z.id in Hc. rewrite Hc in Hi by lia. inversion Hi. unfold count_of. lia. }
    assert (R : forall k, (k < length (rows g))%nat -> nth_error igroup (Z.to_nat f + k) = nth_error (rows g) k).
    { intros k Hk. rewrite <- Hs. unfold slice. rewrite nth_error_firstn, nth_error_skipn.
      destruct (Nat.ltb_spec k (Z.to_nat (Z.of_nat (length (rows g))))); [reflexivity|lia]. }
    assert (R' : forall k, (k < length (rows g))%nat -> zrd igroup (f + Z.of_nat k) = nth_error (rows g) k).
    { intros k Hk. rewrite zrd_some by lia. replace (Z.to_nat (f + Z.of_nat k)) with (Z.to_nat f + k)%nat by lia. auto. }
    exists f. rewrite !zrd_some by lia. repeat split; auto.
    - assert (length (slice igroup f (Z.of_nat (length (rows g)))) = length (rows g)) by now rewrite Hs.
      unfold slice in H. rewrite firstn_length, skipn_length in H.
      destruct (Nat.eq_dec (length (rows g)) 0) as [E0|E0].
      + rewrite E0. simpl. rewrite Z.add_0_r.
        destruct (Z.le_gt_cases f (Z.of_nat (length igroup))) as [|Hgt]; auto. exfalso.
        (* the sum of all counts is at most the number of rows *)
        assert (Hall : zsum ncount <= Z.of_nat (length keys)).
        { assert (ncount = Inter.tab (length ncount) (count_of keys)) as ->.
          { apply histogram_eq. split; auto. intros h Hh. apply Hc. lia. }
          rewrite <- grouped_length.
          apply inj_le. transitivity (length (map Z.of_nat (seq 0 (length keys)))); [|now rewrite map_length, seq_length].
          apply NoDup_incl_length.
          - unfold grouped. clear. assert (D : forall a b i, In i (rows_with keys a) -> In i (rows_with keys b) -> a = b).
            { intros a b i Ha Hb. apply rows_with_in in Ha as (k & -> & Ha). apply rows_with_in in Hb as (k' & Ek & Hb).
              assert (k' = k) by lia. subst. congruence. }
            pose proof (zseq_nodup (length ncount)) as ND. induction (zseq (length ncount)) as [|h l IH]; simpl; [constructor|].
            inversion ND; subst. apply NoDup_app_iff. split; [apply rows_with_nodup|]. split; auto.
            intros x Hx Hx'. apply in_concat in Hx' as (y & Hy & Hx'). apply in_map_iff in Hy as (h' & <- & Hh').
            rewrite (D _ _ _ Hx Hx') in *. contradiction.
          - intros x Hx. apply grouped_in in Hx as (h & _ & Hx). apply rows_with_in in Hx as (k & -> & Hk).
            apply in_map. apply in_seq. apply nth_error_Some_lt in Hk. lia. }
        assert (f <= zsum ncount).
        { rewrite Hf. assert (zsum ncount = zsum (firstn (Z.to_nat g) ncount) + zsum (skipn (Z.to_nat g) ncount)).
          { rewrite <- zsum_app. now rewrite firstn_skipn. }
          assert (P : forall l, (forall x, In x l -> 0 <= x) -> 0 <= zsum l).
          { induction l as [|x l IH]; simpl; intros Hl; [lia|]. assert (0 <= x) by auto. assert (0 <= zsum l) by auto. lia. }
          assert (0 <= zsum (skipn (Z.to_nat g) ncount)).
          { apply P. intros x Hx.
            assert (Hx' : In x ncount). { rewrite <- (firstn_skipn (Z.to_nat g) ncount). apply in_or_app; auto. }
            apply In_nth_error in Hx' as (i & Hi). pose proof (nth_error_Some_lt _ _ _ Hi).
            specialize (Hc (Z.of_nat i)). rewrite Nat2Z.id in Hc. rewrite Hc in Hi by lia. inversion Hi. unfold count_of. lia. }
          lia. }
        lia.
      + lia.
    - intros k Hk. unfold src_at. rewrite R' by auto.
      pose proof (Forall2_nth _ _ _ k (rows_vals src keys g L)) as H2.
      destruct (nth_error (rows g) k) as [r|] eqn:Er.
      + destruct (nth_error (vals g) k); [|tauto]. exact H2.
      + apply nth_error_None in Er. lia.
  Qed.

  Lemma copy_group_spec g f : (forall k, (k < length (rows g))%nat -> src_at src igroup (f + Z.of_nat k) = nth_error (vals g) k) ->
    copy_group src igroup (length (rows g)) f = Some (vals g).
  Proof.
    intros H. rewrite <- vals_len in *. revert H. generalize (vals g) as l. intros l. revert f.
    induction l as [|x l IH]; intros f H; [reflexivity|].
    cbn [length copy_group]. pose proof (H 0%nat ltac:(simpl; lia)) as H0. rewrite Z.add_0_r in H0. rewrite H0. cbn [nth_error].
    rewrite IH; auto. intros k Hk. replace (f + 1 + Z.of_nat k) with (f + Z.of_nat (S k)) by lia. rewrite H by (simpl; lia). reflexivity.
  Qed.
End Layout.

(** ** One result per bin *)
Section PerBin.
  Context {U : Type}.

  Lemma bin_loop_enum (f : @xfun U) (F : Z -> U) : forall n low, (forall g, low <= g < low + Z.of_nat n -> f g = Some [(g, F g)]) ->
    bin_loop f n low = Some (enum 1 low (map F (map (fun i => low + Z.of_nat i) (seq 0 n)))).
  Proof.
    induction n as [|n IH]; intros low H; [reflexivity|].
    cbn [bin_loop]. rewrite H by lia. rewrite IH by (intros; apply H; lia).
    cbn [seq map enum app]. rewrite Z.add_0_r. f_equal. f_equal. f_equal. rewrite <- seq_shift, !map_map. apply map_ext.
    intros i. f_equal. lia.
  Qed.

  Lemma xcall_enum (f : @xfun U) (F : Z -> U) low high : low <= high -> (forall g, low <= g < high -> f g = Some [(g, F g)]) ->
    xcall f low high = Some (map (fun g => (g, F g)) (map (fun i => low + Z.of_nat i) (seq 0 (Z.to_nat (high - low))))).
  Proof.
    intros Hl H. unfold xcall. rewrite (bin_loop_enum f F) by (intros; apply H; lia). f_equal.
    generalize (Z.to_nat (high - low)) as n. intros n. revert low Hl H. clear. intros low _ _. revert low.
    induction n as [|n IH]; intros low; [reflexivity|].
    cbn [seq map enum]. rewrite Z.add_0_r. f_equal. rewrite <- seq_shift, !map_map.
    specialize (IH (low + 1)). rewrite !map_map in IH.
    erewrite map_ext; [rewrite IH|]; [apply map_ext; intros i; f_equal; [lia|f_equal; lia]|intros i; simpl; f_equal; lia].
  Qed.

  Lemma range_in low n g : In g (map (fun i => low + Z.of_nat i) (seq 0 n)) <-> low <= g < low + Z.of_nat n.
  Proof.
    rewrite in_map_iff. split.
    - intros (i & <- & Hi). apply in_seq in Hi. lia.
    - intros H. exists (Z.to_nat (g - low)). rewrite in_seq. lia.
  Qed.
  Lemma range_nodup low n : NoDup (map (fun i => low + Z.of_nat i) (seq 0 n)).
  Proof. apply FinFun.Injective_map_NoDup; [intros a b; lia | apply seq_NoDup]. Qed.

  Lemma groupby_x (f : @xfun U) (F : Z -> U) low high out0 : 0 <= low <= high -> high <= Z.of_nat (length out0) ->
    (forall g, low <= g < high -> f g = Some [(g, F g)]) ->
    exists res, GroupByX (xcall f) low high out0 = Some res /\ length res = length out0 /\
      (forall g, low <= g < high -> nth_error res (Z.to_nat g) = Some (F g)) /\ outside_kept low high out0 res.
  Proof.
    intros Hl Hh H. unfold GroupByX. rewrite (xcall_enum f F) by (lia || auto).
    set (l := map (fun i => low + Z.of_nat i) (seq 0 (Z.to_nat (high - low)))).
    assert (Hin : forall g, In g l <-> low <= g < high) by (intros g; unfold l; rewrite range_in; lia).
    assert (Ef : map fst (map (fun g => (g, F g)) l) = l) by (rewrite map_map; simpl; apply map_id).
    destruct (writes_distinct (map (fun g => (g, F g)) l) out0) as (res & E & L & H1 & H2).
    - rewrite Ef. apply range_nodup.
    - intros i x Hi. apply in_map_iff in Hi as (g & Eg & Hg). inversion Eg; subst. apply Hin in Hg. lia.
    - exists res. repeat split; auto.
      + intros g Hg. apply H1. apply in_map_iff. exists g. split; auto. now apply Hin.
      + intros g Hg. apply H2. rewrite Ef, Hin. exact Hg.
  Qed.

  Lemma bands_loop_spec (f : @xfun U) (F : Z -> U) hi : forall cores d r low, 0 <= d -> 0 <= r <= Z.of_nat cores -> hi = low + Z.of_nat cores * d + r ->
    (forall g, low <= g < hi -> f g = Some [(g, F g)]) ->
    exists wss, each_band (fun b => xcall f (fst b) (snd b)) (bands_loop cores d r low) = Some wss /\
      concat wss = map (fun g => (g, F g)) (map (fun i => low + Z.of_nat i) (seq 0 (Z.to_nat (hi - low)))).
  Proof.
    induction cores as [|c IH]; intros d r low Hd Hr -> H.
    - exists []. split; [reflexivity|]. replace (Z.to_nat _) with 0%nat by lia. reflexivity.
    - cbn [bands_loop each_band fst snd]. set (b := if 0 <? r then 1 else 0). set (r' := if 0 <? r then r - 1 else r).
      assert (Hb : b + r' = r /\ 0 <= b <= 1 /\ 0 <= r' <= Z.of_nat c).
      { unfold b, r'. destruct (Z.ltb_spec 0 r); lia. }
      set (high := low + d + b).
      rewrite (xcall_enum f F low high) by (first [unfold high; nia | intros g Hg; apply H; unfold high in *; nia]).
      destruct (IH d r' high) as (wss & E & Ec); try lia.
      { intros g Hg. apply H. unfold high in *. nia. }
      rewrite E. eexists. split; [reflexivity|]. cbn [concat]. rewrite Ec.
      rewrite <- map_app. f_equal.
      replace (Z.to_nat (low + Z.of_nat (S c) * d + r - low)) with (Z.to_nat (high - low) + Z.to_nat (high + Z.of_nat c * d + r' - high))%nat
        by (unfold high; nia).
      rewrite seq_app, map_app. f_equal. rewrite Nat.add_0_l.
      replace (seq (Z.to_nat (high - low)) (Z.to_nat (high + Z.of_nat c * d + r' - high)))
        with (map (fun i => (Z.to_nat (high - low) + i)%nat) (seq 0 (Z.to_nat (high + Z.of_nat c * d + r' - high)))).
      + rewrite map_map. replace (Z.to_nat (high + Z.of_nat c * d + r' - high)) with (Z.to_nat (low + Z.of_nat (S c) * d + r - high)) by (f_equal; unfold high; lia).
        apply map_ext. intros i. unfold high. lia.
      + clear. generalize (Z.to_nat (high - low)), (Z.to_nat (high + Z.of_nat c * d + r' - high)). intros a m.
        apply list_ext. intros i. rewrite nth_error_map, !nth_error_seq. destruct (Nat.ltb_spec i m); reflexivity.
  Qed.

  Lemma banded (ord : sched) (f : @xfun U) (F : Z -> U) cores n out0 : fair ord -> 0 < cores -> 0 <= n <= Z.of_nat (length out0) ->
    (forall g, 0 <= g < n -> f g = Some [(g, F g)]) ->
    BandedGroupBy ord (xcall f) cores n out0 = GroupByX (xcall f) 0 n out0.
  Proof.
    intros Ho Hc Hn H. unfold BandedGroupBy, GroupByX, bands.
    destruct (bands_loop_spec f F n (Z.to_nat cores) (n / cores) (n mod cores) 0) as (wss & E & Ec).
    - apply Z.div_pos; lia.
    - pose proof (Z.mod_pos_bound n cores Hc). lia.
    - rewrite Z2Nat.id by lia. rewrite Z.add_0_l. apply Z.div_mod. lia.
    - exact H.
    - rewrite E. rewrite (xcall_enum f F) by (lia || auto). rewrite Ec.
      set (ws := map (fun g => (g, F g)) _).
      assert (ND : NoDup (map fst ws)) by (unfold ws; rewrite map_map; rewrite (map_ext _ (fun g => g)) by reflexivity; rewrite map_id; apply range_nodup).
      assert (Hb : forall i x, In (i, x) ws -> 0 <= i < Z.of_nat (length out0)).
      { intros i x Hi. unfold ws in Hi. apply in_map_iff in Hi as (g & Eg & Hg). inversion Eg; subst. apply range_in in Hg. lia. }
      symmetry. apply writes_perm; auto. symmetry. apply Ho.
  Qed.

  (** The call for a column: the bins of the range get their result, banded or not. *)
  Lemma pack_call (ord : sched) thr bf numCores rows (f : @xfun U) (F : Z -> U) low high n out0 : fair ord ->
    0 <= low <= high -> high <= n -> n = Z.of_nat (length out0) -> (forall g, 0 <= g < n -> f g = Some [(g, F g)]) ->
    exists res, GroupByAllPack32 ord thr bf numCores rows (xcall f) low high n out0 = Some res /\ length res = length out0 /\
      (forall g, low <= g < high -> nth_error res (Z.to_nat g) = Some (F g)) /\
      (bf && (65536 <? rows) && thr = false -> outside_kept low high out0 res).
  Proof.
    intros Ho Hl Hh Hn H. unfold GroupByAllPack32.
    set (cores := if high - low <? numCores then high - low else numCores).
    destruct (bf && (65536 <? rows) && thr) eqn:E1; simpl.
    - destruct (Z.ltb_spec 0 cores) as [Hc|Hc].
      + rewrite (banded ord f F) by (auto || lia).
        destruct (groupby_x f F 0 n out0) as (res & E & L & H1 & _); [lia|lia|auto|].
        exists res. split; [exact E|]. split; auto. split; [intros g Hg; apply H1; lia|discriminate].
      + destruct (groupby_x f F low high out0) as (res & E & L & H1 & H2); [lia|lia|intros; apply H; lia|].
        exists res. repeat split; auto.
    - destruct (groupby_x f F low high out0) as (res & E & L & H1 & H2); [lia|lia|intros; apply H; lia|].
      exists res. repeat split; auto.
  Qed.
End PerBin.
