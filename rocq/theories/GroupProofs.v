(** Proofs about counting and the packed layout. *)
From Verif Require Import Base Mem MemLemmas Inter SegModel SegSpec SegProofs GroupModel GroupSpec.
Local Open Scope Z_scope.

(** ** Counting *)
Lemma count_cons k ks g : count_of (k :: ks) g = (if g =? k then 1 else 0) + count_of ks g.
Proof. unfold count_of. simpl. destruct (g =? k); lia. Qed.

Lemma count_app a b g : count_of (a ++ b) g = count_of a g + count_of b g.
Proof. unfold count_of. rewrite countb_app. lia. Qed.

Lemma count_loop_spec ks n : forall f,
  count_loop ks (Z.of_nat n) (tab n f) = Some (tab n (fun g => f g + count_of ks g)).
Proof.
  induction ks as [|k ks IH]; intros f; simpl.
  - f_equal. apply tab_ext. intros. unfold count_of. simpl. lia.
  - destruct (Z.leb_spec 0 k), (Z.ltb_spec k (Z.of_nat n)); cbn [andb].
    + rewrite tab_zrd by lia. rewrite tab_zwr by lia. rewrite IH. f_equal. apply tab_ext. intros g Hg.
      rewrite count_cons. destruct (Z.eqb_spec g k); subst; lia.
    + rewrite IH. f_equal. apply tab_ext. intros g Hg. rewrite count_cons. destruct (Z.eqb_spec g k); lia.
    + rewrite IH. f_equal. apply tab_ext. intros g Hg. rewrite count_cons. destruct (Z.eqb_spec g k); lia.
    + rewrite IH. f_equal. apply tab_ext. intros g Hg. rewrite count_cons. destruct (Z.eqb_spec g k); lia.
Qed.

Lemma bin_count_algo keys a b n : BinCountAlgo keys a b (Z.of_nat n) = Some (tab n (count_of (band_rows keys (a, b)))).
Proof.
  unfold BinCountAlgo. rewrite Nat2Z.id, tab_const, count_loop_spec. f_equal.
Qed.

Lemma bin_count_all keys n : BinCountAlgo keys 0 (Z.of_nat (length keys)) (Z.of_nat n) = Some (tab n (count_of keys)).
Proof.
  rewrite bin_count_algo. f_equal. unfold band_rows. simpl. rewrite Z.sub_0_r, Nat2Z.id. now rewrite firstn_all.
Qed.

Lemma histogram_tab n keys : histogram (Z.of_nat n) keys (tab n (count_of keys)).
Proof.
  split; [now rewrite tab_length|]. intros g Hg. rewrite tab_nth by lia. f_equal. f_equal. lia.
Qed.

Lemma histogram_eq n keys c : histogram (Z.of_nat n) keys c -> c = tab n (count_of keys).
Proof.
  intros [L H]. apply list_ext. intros i.
  destruct (Nat.lt_ge_cases i n) as [Hi|Hi].
  - rewrite tab_nth by auto. specialize (H (Z.of_nat i)). rewrite Nat2Z.id in H. apply H. lia.
  - rewrite !nth_error_ge; auto; rewrite ?tab_length; lia.
Qed.

(** ** Bands *)
Lemma skipn_skipn' {A} (l : list A) a b : skipn a (skipn b l) = skipn (b + a) l.
Proof. apply list_ext. intros i. rewrite !nth_error_skipn. f_equal. lia. Qed.

Lemma band_rows_contiguous {A} (l : list A) bands : forall lo, 0 <= lo ->
  contiguous lo (Z.of_nat (length l)) bands -> concat (map (band_rows l) bands) = skipn (Z.to_nat lo) l.
Proof.
  induction bands as [|[a b] bands IH]; simpl; intros lo H0 C.
  - subst. rewrite Nat2Z.id. now rewrite skipn_all.
  - destruct C as (-> & Hab & C). rewrite (IH b) by (auto; lia).
    unfold band_rows; simpl.
    rewrite <- (firstn_skipn (Z.to_nat (b - lo)) (skipn (Z.to_nat lo) l)) at 2. f_equal.
    rewrite skipn_skipn'. f_equal. lia.
Qed.

Lemma each_band_map {B A} (f : B -> option A) g l : (forall x, In x l -> f x = Some (g x)) -> each_band f l = Some (map g l).
Proof. induction l as [|x l IH]; simpl; intros H; auto. rewrite (H x), IH; auto. Qed.

Lemma each_band_forall {B A} (f : B -> option A) (P : B -> A -> Prop) l :
  (forall x, In x l -> exists y, f x = Some y /\ P x y) -> exists ys, each_band f l = Some ys /\ Forall2 P l ys.
Proof.
  induction l as [|x l IH]; simpl; intros H.
  - exists []. auto.
  - destruct (H x) as (y & -> & Py); auto. destruct IH as (ys & -> & F); auto. exists (y :: ys). auto.
Qed.

(** ** The shared loop *)
Definition op_key (o : gop) : Z := match o with Row _ k => k | Fix b => b end.
Definition op_on (g : Z) (o : gop) : bool := op_key o =? g.

(* the places used by the steps on one bin, whose cursor starts at v and whose count is c *)
Fixpoint places (c v : Z) (ops : list gop) : list (Z * Z) :=
  match ops with
  | [] => []
  | Row i _ :: t => (v, i) :: places c (v + 1) t
  | Fix _ :: t => places c (v - c) t
  end.
Fixpoint cursor (c v : Z) (ops : list gop) : Z :=
  match ops with
  | [] => v
  | Row i _ :: t => cursor c (v + 1) t
  | Fix _ :: t => cursor c (v - c) t
  end.

Definition zseq (n : nat) : list Z := map Z.of_nat (seq 0 n).
Lemma zseq_in n g : In g (zseq n) <-> 0 <= g < Z.of_nat n.
Proof.
  unfold zseq. rewrite in_map_iff. split.
  - intros (i & <- & H). apply in_seq in H. lia.
  - intros H. exists (Z.to_nat g). split; [lia|]. apply in_seq. lia.
Qed.
Lemma zseq_nodup n : NoDup (zseq n).
Proof. unfold zseq. apply FinFun.Injective_map_NoDup; [intros a b; lia | apply seq_NoDup]. Qed.

Lemma run_ops_spec ops n c : forall f, (forall o, In o ops -> 0 <= op_key o < Z.of_nat n) ->
  exists ws, run_ops ops (tab n c) (tab n f) = Some (ws, tab n (fun g => cursor (c g) (f g) (filter (op_on g) ops))) /\
    Permutation ws (concat (map (fun g => places (c g) (f g) (filter (op_on g) ops)) (zseq n))).
Proof.
  induction ops as [|o ops IH]; intros f H.
  - exists []. split; auto. simpl. clear. induction (zseq n); simpl; auto.
  - assert (Ho := H o (or_introl eq_refl)).
    assert (Hops : forall o', In o' ops -> 0 <= op_key o' < Z.of_nat n) by (intros; apply H; now right).
    destruct o as [i k|b]; cbn [run_ops]; simpl in Ho.
    + rewrite tab_zrd by lia. rewrite tab_zwr by lia.
      destruct (IH (fun g => if g =? k then f k + 1 else f g) Hops) as (ws & -> & P).
      exists ((f k, i) :: ws). split.
      * f_equal. f_equal. apply tab_ext. intros g Hg. cbn [filter]. unfold op_on at 2. cbn [op_key].
        destruct (Z.eqb_spec g k) as [->|Hn]; [rewrite Z.eqb_refl; reflexivity|].
        destruct (Z.eqb_spec k g); [congruence|reflexivity].
      * symmetry. etransitivity.
        -- apply (concat_one (fun g => places (c g) (if g =? k then f k + 1 else f g) (filter (op_on g) ops))
                             _ (zseq n) k (f k, i)).
           ++ apply zseq_nodup.
           ++ apply zseq_in; lia.
           ++ cbn [filter]. unfold op_on at 1. cbn [op_key]. rewrite !Z.eqb_refl. reflexivity.
           ++ intros g Hg Hn. cbn [filter]. unfold op_on at 1. cbn [op_key].
              destruct (Z.eqb_spec k g); [congruence|]. destruct (Z.eqb_spec g k); [congruence|]. reflexivity.
        -- apply Permutation_cons; auto. now symmetry.
    + rewrite !tab_zrd by lia. rewrite tab_zwr by lia.
      destruct (IH (fun g => if g =? b then f b - c b else f g) Hops) as (ws & -> & P).
      exists ws. split.
      * f_equal. f_equal. apply tab_ext. intros g Hg. cbn [filter]. unfold op_on at 2. cbn [op_key].
        destruct (Z.eqb_spec g b) as [->|Hn]; [rewrite Z.eqb_refl; reflexivity|].
        destruct (Z.eqb_spec b g); [congruence|reflexivity].
      * rewrite P. erewrite map_ext; [reflexivity|]. intros g. cbn [filter]. unfold op_on at 2. cbn [op_key].
        destruct (Z.eqb_spec g b) as [->|Hn]; [rewrite Z.eqb_refl; reflexivity|].
        destruct (Z.eqb_spec b g); [congruence|reflexivity].
Qed.

(* MakeiGroup2's loop is the same loop restricted to its range *)
Lemma igroup_loop_ops rows lo hi nc : forall cur,
  igroup_loop rows lo hi cur =
  run_ops (map (fun p => Row (fst p) (snd p)) (filter (fun p => (lo <=? snd p) && (snd p <? hi)) rows)) nc cur.
Proof.
  induction rows as [|[i k] rows IH]; intros cur; simpl; auto.
  destruct ((lo <=? k) && (k <? hi)); simpl; auto.
  destruct (zrd cur k); auto. destruct (zwr cur k (z + 1)); auto. now rewrite IH.
Qed.

(** ** Rows of a bin *)
Definition sel (g : Z) (rows : list (Z * Z)) : list Z := map fst (filter (fun p => snd p =? g) rows).

Lemma sel_app g a b : sel g (a ++ b) = sel g a ++ sel g b.
Proof. unfold sel. now rewrite filter_app, map_app. Qed.

Lemma sel_concat g ls : sel g (concat ls) = concat (map (sel g) ls).
Proof. induction ls as [|l ls IH]; simpl; auto. now rewrite sel_app, IH. Qed.

Lemma sel_numbered_from keys g : forall o, sel g (enum 1 o keys) =
  map (fun i => o + Z.of_nat i) (filter (fun i => match nth_error keys i with Some k => k =? g | None => false end) (seq 0 (length keys))).
Proof.
  unfold sel. induction keys as [|k keys IH]; intros o; simpl; auto.
  assert (E : forall (P : nat -> bool) l, filter P (map S l) = map S (filter (fun i => P (S i)) l)).
  { clear. intros P l. induction l as [|x l IH]; simpl; auto. destruct (P (S x)); simpl; now rewrite IH. }
  rewrite <- seq_shift, E. specialize (IH (o + 1)). simpl.
  assert (T : map (fun i => o + Z.of_nat i) (map S (filter (fun i => match nth_error keys i with Some k0 => k0 =? g | None => false end) (seq 0 (length keys))))
    = map (fun i => o + 1 + Z.of_nat i) (filter (fun i => match nth_error keys i with Some k0 => k0 =? g | None => false end) (seq 0 (length keys)))).
  { rewrite map_map. apply map_ext. intros; lia. }
  destruct (k =? g); simpl; rewrite IH, <- T; auto. f_equal. lia.
Qed.

Lemma sel_numbered keys g : sel g (numbered keys) = rows_with keys g.
Proof. unfold numbered, rows_with. rewrite sel_numbered_from. reflexivity. Qed.

Lemma sel_length g rows : Z.of_nat (length (sel g rows)) = count_of (map snd rows) g.
Proof.
  unfold sel, count_of. rewrite map_length, <- countb_length_filter. f_equal.
  induction rows as [|[i k] rows IH]; simpl; auto. rewrite IH, Z.eqb_sym. reflexivity.
Qed.

Lemma enum_snd {A} s (l : list A) : forall o, map snd (enum s o l) = l.
Proof. induction l; simpl; intros; auto. now rewrite IHl. Qed.

Lemma rows_with_length keys g : Z.of_nat (length (rows_with keys g)) = count_of keys g.
Proof. rewrite <- sel_numbered, sel_length. unfold numbered. now rewrite enum_snd. Qed.

(** The steps on bin g among the rows of a range *)
Lemma ops_of_bin g lo hi rows : lo <= g < hi ->
  filter (op_on g) (map (fun p => Row (fst p) (snd p)) (filter (fun p => (lo <=? snd p) && (snd p <? hi)) rows))
  = map (fun i => Row i g) (sel g rows).
Proof.
  intros Hg. unfold sel. induction rows as [|[i k] rows IH]; simpl; auto.
  destruct (Z.eqb_spec k g) as [->|Hn].
  - rewrite (proj2 (Z.leb_le _ _)), (proj2 (Z.ltb_lt _ _)) by lia. cbn [andb map filter]. unfold op_on at 1. cbn [op_key].
    rewrite Z.eqb_refl. simpl. now rewrite IH.
  - destruct ((lo <=? k) && (k <? hi)); simpl; auto. unfold op_on at 1. cbn [op_key].
    rewrite (proj2 (Z.eqb_neq _ _)) by auto. auto.
Qed.

Lemma ops_of_other_bin g lo hi rows : ~ lo <= g < hi ->
  filter (op_on g) (map (fun p => Row (fst p) (snd p)) (filter (fun p => (lo <=? snd p) && (snd p <? hi)) rows)) = [].
Proof.
  intros Hg. induction rows as [|[i k] rows IH]; simpl; auto.
  destruct (Z.leb_spec lo k), (Z.ltb_spec k hi); simpl; auto. unfold op_on at 1. cbn [op_key].
  rewrite (proj2 (Z.eqb_neq _ _)) by lia. auto.
Qed.

Lemma places_rows c g l tl : forall v, places c v (map (fun i => Row i g) l ++ tl) = enum 1 v l ++ places c (v + Z.of_nat (length l)) tl.
Proof.
  induction l as [|i l IH]; intros v; simpl.
  - f_equal. lia.
  - f_equal. rewrite IH. f_equal. f_equal. lia.
Qed.
Lemma cursor_rows c g l tl : forall v, cursor c v (map (fun i => Row i g) l ++ tl) = cursor c (v + Z.of_nat (length l)) tl.
Proof.
  induction l as [|i l IH]; intros v; simpl.
  - f_equal. lia.
  - rewrite IH. f_equal. lia.
Qed.

(** ** Consecutive placement *)
Lemma enum_consecutive {A} (ls : list (list A)) : forall a,
  concat (map (fun t => enum 1 (a + zsum (firstn t (map (fun l => Z.of_nat (length l)) ls))) (nth t ls [])) (seq 0 (length ls)))
  = enum 1 a (concat ls).
Proof.
  induction ls as [|l ls IH]; intros a; simpl; auto.
  rewrite enum_app. f_equal; [unfold zsum; simpl; f_equal; lia|].
  rewrite <- IH. rewrite <- seq_shift, map_map. f_equal. apply map_ext. intros t. cbn [firstn map nth]. f_equal. unfold zsum. cbn [fold_right]. lia.
Qed.

Lemma concat_nil_map {A B} (l : list A) : concat (map (fun _ => @nil B) l) = [].
Proof. induction l; simpl; auto. Qed.

Lemma concat_swap {A B C} (f : A -> B -> list C) (la : list A) (lb : list B) :
  Permutation (concat (map (fun a => concat (map (f a) lb)) la)) (concat (map (fun b => concat (map (fun a => f a b) la)) lb)).
Proof.
  induction la as [|a la IH]; simpl.
  - now rewrite concat_nil_map.
  - rewrite IH. clear IH. induction lb as [|b lb IH]; simpl; auto.
    rewrite <- !app_assoc. apply Permutation_app_head.
    rewrite app_assoc, (Permutation_app_comm (concat (map (f a) lb))), <- app_assoc.
    apply Permutation_app_head. auto.
Qed.

(** The sum of the counts of the bins before g *)
Definition before (c : Z -> Z) (g : Z) : Z := zsum (map (fun i => c (Z.of_nat i)) (seq 0 (Z.to_nat g))).

Lemma excl_tab n c : excl 0 (tab n c) = tab n (before c).
Proof.
  apply list_ext. intros i. destruct (Nat.lt_ge_cases i n) as [H|H].
  - rewrite excl_nth by (rewrite tab_length; auto). rewrite tab_nth by auto. f_equal.
    unfold before, tab. rewrite Nat2Z.id, firstn_map. simpl. f_equal. f_equal.
    apply list_ext. intros j. rewrite nth_error_firstn, !nth_error_seq.
    destruct (Nat.ltb_spec j i), (Nat.ltb_spec j n); auto; lia.
  - rewrite !nth_error_ge; auto; rewrite ?excl_length, ?tab_length; auto.
Qed.

Lemma zsum_firstn_tab n c g : 0 <= g <= Z.of_nat n -> zsum (firstn (Z.to_nat g) (tab n c)) = before c g.
Proof.
  intros H. unfold before, tab. rewrite firstn_map. f_equal. f_equal.
  apply list_ext. intros j. rewrite nth_error_firstn, !nth_error_seq.
  destruct (Nat.ltb_spec j (Z.to_nat g)), (Nat.ltb_spec j n); auto; lia.
Qed.

(** All bins of the packed layout one after another *)
Definition grouped (n : nat) (keys : list Z) : list Z := concat (map (rows_with keys) (zseq n)).

Lemma nth_map_seq {A} (f : nat -> A) n i d : (i < n)%nat -> nth i (map f (seq 0 n)) d = f i.
Proof. intros H. apply nth_error_nth. rewrite nth_error_map, nth_error_seq. destruct (Nat.ltb_spec i n); [reflexivity|lia]. Qed.

Lemma grouped_enum n keys :
  concat (map (fun g => enum 1 (before (count_of keys) g) (rows_with keys g)) (zseq n)) = enum 1 0 (grouped n keys).
Proof.
  unfold grouped. rewrite <- enum_consecutive. rewrite map_length. replace (length (zseq n)) with n by (unfold zseq; now rewrite map_length, seq_length).
  unfold zseq. rewrite !map_map. f_equal. apply map_ext_in. intros i Hi. apply in_seq in Hi.
  rewrite nth_map_seq by lia. f_equal. cbn [Z.add]. unfold before. rewrite Nat2Z.id, firstn_map. f_equal.
  erewrite map_ext; [|intros; symmetry; apply rows_with_length].
  f_equal. apply list_ext. intros j. rewrite nth_error_firstn, !nth_error_seq.
  destruct (Nat.ltb_spec j i), (Nat.ltb_spec j n); auto; lia.
Qed.

Lemma grouped_length n keys : Z.of_nat (length (grouped n keys)) = zsum (tab n (count_of keys)).
Proof.
  unfold grouped, zseq, tab. rewrite map_map. induction (seq 0 n) as [|i l IH]; simpl; auto.
  rewrite app_length. rewrite Nat2Z.inj_add, IH, rows_with_length. reflexivity.
Qed.

Lemma grouped_in n keys i : In i (grouped n keys) <-> exists g, 0 <= g < Z.of_nat n /\ In i (rows_with keys g).
Proof.
  unfold grouped. rewrite in_concat. split.
  - intros (l & Hl & Hi). apply in_map_iff in Hl as (g & <- & Hg). apply zseq_in in Hg. eauto.
  - intros (g & Hg & Hi). exists (rows_with keys g). split; auto. apply in_map. now apply zseq_in.
Qed.

Lemma rows_with_in keys g i : In i (rows_with keys g) <-> exists k, i = Z.of_nat k /\ nth_error keys k = Some g.
Proof.
  unfold rows_with. rewrite in_map_iff. split.
  - intros (k & <- & H). apply filter_In in H as [_ H]. destruct (nth_error keys k) eqn:E; [|discriminate].
    apply Z.eqb_eq in H. subst. eauto.
  - intros (k & -> & H). exists k. split; auto. apply filter_In. split.
    + apply in_seq. apply nth_error_Some_lt in H. lia.
    + rewrite H. apply Z.eqb_refl.
Qed.

Lemma rows_with_nodup keys g : NoDup (rows_with keys g).
Proof. unfold rows_with. apply FinFun.Injective_map_NoDup; [intros a b; lia | apply NoDup_filter, seq_NoDup]. Qed.

Lemma NoDup_concat_disjoint {A B} (f : A -> list B) (l : list A) : NoDup l -> (forall a, In a l -> NoDup (f a)) ->
  (forall a b x, In a l -> In b l -> In x (f a) -> In x (f b) -> a = b) -> NoDup (concat (map f l)).
Proof.
  induction l as [|a l IH]; simpl; intros N H D; [constructor|].
  inversion N; subst. apply NoDup_app_iff. repeat split.
  - apply H; auto.
  - apply IH; auto. intros; eapply D; eauto.
  - intros x Hx Hc. apply in_concat in Hc as (q & Hq & Hi). apply in_map_iff in Hq as (b & <- & Hb).
    assert (a = b) by (eapply D; eauto). subst. contradiction.
Qed.

Lemma grouped_nodup n keys : NoDup (grouped n keys).
Proof.
  unfold grouped. apply NoDup_concat_disjoint.
  - apply zseq_nodup.
  - intros; apply rows_with_nodup.
  - intros a b x _ _ Ha Hb. apply rows_with_in in Ha as (k & -> & Hk). apply rows_with_in in Hb as (k' & E & Hk').
    assert (k = k') by lia. subst. congruence.
Qed.

Lemma grouped_perm n keys : all_in_range (Z.of_nat n) keys -> Permutation (grouped n keys) (zseq (length keys)).
Proof.
  intros H. apply NoDup_Permutation; [apply grouped_nodup | apply zseq_nodup |].
  intros i. rewrite grouped_in, zseq_in. split.
  - intros (g & _ & Hi). apply rows_with_in in Hi as (k & -> & Hk). apply nth_error_Some_lt in Hk. lia.
  - intros Hi. destruct (nth_error_lt keys (Z.to_nat i)) as [g Hg]; [lia|].
    exists g. split; [apply H; eapply nth_error_In; eauto|]. apply rows_with_in. exists (Z.to_nat i). split; auto. lia.
Qed.

Lemma grouped_le n keys : (length (grouped n keys) <= length keys)%nat.
Proof.
  rewrite <- (seq_length (length keys) 0), <- (map_length Z.of_nat). fold (zseq (length keys)).
  apply NoDup_incl_length; [apply grouped_nodup|]. intros i Hi. apply grouped_in in Hi as (g & _ & Hi).
  apply rows_with_in in Hi as (k & -> & Hk). apply nth_error_Some_lt in Hk. apply zseq_in. lia.
Qed.

(** The slice of one bin *)
Lemma zsum_nonneg l : (forall x, In x l -> 0 <= x) -> 0 <= zsum l.
Proof. unfold zsum. induction l as [|x l IH]; simpl; intros H; [lia|]. specialize (IH (fun y Hy => H y (or_intror Hy))). specialize (H x (or_introl eq_refl)). lia. Qed.

Lemma in_firstn {A} (l : list A) n x : In x (firstn n l) -> In x l.
Proof. revert l; induction n; intros [|h l]; simpl; try tauto. intros [->|H]; auto. Qed.

Lemma slice_concat {A} (ls : list (list A)) tl t l : nth_error ls t = Some l ->
  slice (concat ls ++ tl) (zsum (firstn t (map (fun l => Z.of_nat (length l)) ls))) (Z.of_nat (length l)) = l.
Proof.
  revert t. induction ls as [|h ls IH]; intros [|t] H; simpl in *; try discriminate.
  - inversion H; subst. unfold slice. simpl. rewrite Nat2Z.id, <- app_assoc, firstn_app, Nat.sub_diag, firstn_all. simpl. apply app_nil_r.
  - specialize (IH t H). unfold slice in *. etransitivity; [|exact IH]. f_equal.
    assert (0 <= zsum (firstn t (map (fun l => Z.of_nat (length l)) ls))).
    { apply zsum_nonneg. intros x Hx. apply in_firstn in Hx. apply in_map_iff in Hx as (? & <- & _). lia. }
    set (z := zsum _) in *. clearbody z.
    rewrite <- app_assoc, skipn_app. rewrite (skipn_all2 h) by lia. simpl. f_equal. lia.
Qed.

Lemma packed_grouped n keys igroup tl : igroup = grouped n keys ++ tl -> length igroup = length keys ->
  packed_rows (Z.of_nat n) keys (tab n (count_of keys)) igroup (tab n (before (count_of keys))).
Proof.
  intros -> L. repeat split; auto; [now rewrite tab_length|].
  intros g Hg. exists (before (count_of keys) g), (count_of keys g).
  rewrite !tab_nth by lia. rewrite Z2Nat.id by lia. repeat split; auto.
  - now rewrite zsum_firstn_tab by lia.
  - assert (E : nth_error (map (rows_with keys) (zseq n)) (Z.to_nat g) = Some (rows_with keys g)).
    { unfold zseq. rewrite nth_error_map, nth_error_map, nth_error_seq. destruct (Nat.ltb_spec (Z.to_nat g) n); [|lia].
      simpl. now rewrite Z2Nat.id by lia. }
    etransitivity; [|apply (slice_concat _ tl _ _ E)]. unfold grouped. rewrite rows_with_length. f_equal.
    rewrite <- (zsum_firstn_tab n) by lia. f_equal. f_equal. unfold tab, zseq. rewrite !map_map.
    apply map_ext. intros; symmetry; apply rows_with_length.
Qed.
