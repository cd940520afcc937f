(** Proofs: MakeiNext and GroupByPack32. *)
From Coq Require Import Sorted.
From Verif Require Import Base Mem MemLemmas Inter GroupModel GroupSpec GroupProofs Group2Proofs.
Local Open Scope Z_scope.

Definition fupd (f : Z -> Z) (g x : Z) (k : Z) : Z := if k =? g then x else f k.

Fixpoint gloop (c : Z -> Z) (rows : list (Z * Z)) (n : Z) (group next : list Z) : option (list Z * list Z) :=
  match rows with
  | [] => Some (group, next)
  | (i, g) :: rows' =>
      if (0 <=? g) && (g <? n) then
        match zrd group g with
        | Some x =>
            match zwr next i x, zwr group g (c i) with
            | Some next', Some group' => gloop c rows' n group' next'
            | _, _ => None
            end
        | None => None
        end
      else gloop c rows' n group next
  end.

Lemma next_loop_gloop w rows n : forall group next,
  next_loop w rows n group next = option_map snd (gloop (wrap w) rows n group next).
Proof.
  induction rows as [|[i g] rows IH]; intros group next; simpl; auto.
  destruct (_ && _); auto. destruct (zrd group g); auto. destruct (zwr next i z), (zwr group g (wrap w i)); auto.
Qed.

Lemma fixup_loop_gloop rows n : (forall p, In p rows -> 0 <= snd p < n) -> forall group next,
  fixup_loop rows group next = gloop (fun i => i) rows n group next.
Proof.
  induction rows as [|[i g] rows IH]; intros H group next; simpl; auto.
  assert (0 <= g < n) by (apply (H (i, g)); simpl; auto).
  rewrite (proj2 (Z.leb_le _ _)), (proj2 (Z.ltb_lt _ _)) by lia. simpl.
  destruct (zrd group g); auto. destruct (zwr next i z), (zwr group g i); auto. apply IH. intros p Hp. apply H. simpl; auto.
Qed.

(* the last row of a list, or f *)
Definition last_of (c : Z -> Z) (d : Z) (l : list Z) : Z := match rev l with [] => d | j :: _ => c j end.

Lemma last_of_cons c d i l : last_of c d (i :: l) = last_of c (c i) l.
Proof. unfold last_of. simpl. destruct (rev l); reflexivity. Qed.

Lemma sel_cons g i k rows : sel g ((i, k) :: rows) = if k =? g then i :: sel g rows else sel g rows.
Proof. unfold sel. simpl. destruct (k =? g); reflexivity. Qed.

Lemma sel_in g rows i : In i (sel g rows) -> In (i, g) rows.
Proof.
  unfold sel. rewrite in_map_iff. intros ([j k] & <- & H). apply filter_In in H as [H E]. simpl in *.
  apply Z.eqb_eq in E. now subst.
Qed.

Lemma gloop_spec c n rows : forall f out,
  (forall p, In p rows -> 0 <= fst p < Z.of_nat (length out)) -> NoDup (map fst rows) ->
  exists res, gloop c rows (Z.of_nat n) (tab n f) out = Some (tab n (fun g => last_of c (f g) (sel g rows)), res) /\
    length res = length out /\
    (forall i, (forall g, 0 <= g < Z.of_nat n -> ~ In (Z.of_nat i, g) rows) -> nth_error res i = nth_error out i) /\
    forall g l1 i l2, 0 <= g < Z.of_nat n -> sel g rows = l1 ++ i :: l2 -> zrd res i = Some (last_of c (f g) l1).
Proof.
  induction rows as [|[i k] rows IH]; intros f out Hr N; cbn [gloop].
  - exists out. repeat split; auto. intros g l1 i l2 _ E. destruct l1; discriminate.
  - simpl in N. inversion N as [|? ? Ni N2]; subst.
    assert (Hi : 0 <= i < Z.of_nat (length out)) by (apply (Hr (i, k)); simpl; auto).
    destruct (Z.leb_spec 0 k) as [H0|H0], (Z.ltb_spec k (Z.of_nat n)) as [H1|H1]; cbn [andb].
    2-4: destruct (IH f out) as (res & E & L & U & S); auto; [intros p Hp; apply Hr; simpl; auto|];
      exists res; rewrite E; split; [f_equal; f_equal; apply tab_ext; intros g Hg; rewrite sel_cons, (proj2 (Z.eqb_neq _ _)) by lia; reflexivity|];
      split; auto; split; [intros j Hj; apply U; intros g Hg Hin; apply (Hj g Hg); simpl; auto|];
      intros g l1 j l2 Hg Es; rewrite sel_cons, (proj2 (Z.eqb_neq _ _)) in Es by lia; eapply S; eauto.
    rewrite tab_zrd, zwr_some, tab_zwr by lia.
    destruct (IH (fun g => if g =? k then c i else f g) (upd out (Z.to_nat i) (f k))) as (res & E & L & U & S); auto.
    { intros p Hp. rewrite length_upd. apply Hr. simpl; auto. }
    exists res. rewrite E. rewrite length_upd in L.
    split. { f_equal. f_equal. apply tab_ext. intros g Hg. rewrite sel_cons, (Z.eqb_sym k g). destruct (g =? k); auto. now rewrite last_of_cons. }
    split; auto. split.
    { intros j Hj. rewrite U.
      - apply nth_error_upd_neq. intros Ej. apply (Hj k); [lia|]. simpl. left. f_equal. lia.
      - intros g Hg Hin. apply (Hj g Hg). simpl; auto. }
    intros g l1 j l2 Hg Es. rewrite sel_cons in Es. destruct (Z.eqb_spec k g) as [->|Hne].
    + destruct l1 as [|i1 l1].
      * inversion Es; subst j l2. rewrite zrd_some by lia. rewrite U.
        -- rewrite nth_error_upd_eq by lia. reflexivity.
        -- intros g2 Hg2 Hin. apply Ni. rewrite Z2Nat.id in Hin by lia. apply (in_map fst) in Hin. exact Hin.
      * injection Es as -> Es. rewrite (S g l1 j l2 Hg Es). rewrite Z.eqb_refl, last_of_cons. reflexivity.
    + rewrite (S g l1 j l2 Hg Es). rewrite (proj2 (Z.eqb_neq _ _)) by lia. reflexivity.
Qed.

Lemma sel_rev g rows : sel g (rev rows) = rev (sel g rows).
Proof.
  unfold sel. rewrite <- map_rev. f_equal. induction rows as [|p rows IH]; simpl; auto.
  rewrite filter_app, IH. simpl. destruct (snd p =? g); simpl; auto using app_nil_r.
Qed.

Lemma map_fst_rev {A B} (l : list (A * B)) : map fst (rev l) = rev (map fst l).
Proof. apply map_rev. Qed.

Lemma numbered_range keys p : In p (numbered keys) -> 0 <= fst p < Z.of_nat (length keys).
Proof.
  intros H. destruct p as [i k]. unfold numbered in H. apply enum_in in H as (j & H & ->). apply nth_error_Some_lt in H. cbn [fst]. lia.
Qed.

Lemma numbered_in keys i k : In (i, k) (numbered keys) <-> exists j, i = Z.of_nat j /\ nth_error keys j = Some k.
Proof.
  unfold numbered. rewrite enum_in. split; intros (j & E & H); exists j; split; auto; lia.
Qed.

Lemma sorted_filter {A} (R : A -> A -> Prop) f l : StronglySorted R l -> StronglySorted R (filter f l).
Proof.
  induction 1 as [|x l _ IH F]; simpl; [constructor|]. destruct (f x); auto. constructor; auto.
  rewrite Forall_forall in *. intros y Hy. apply filter_In in Hy. apply F, Hy.
Qed.

Lemma seq_sorted n : forall s, StronglySorted lt (seq s n).
Proof.
  induction n as [|n IH]; intros s; simpl; constructor; auto. rewrite Forall_forall. intros x Hx. apply in_seq in Hx. lia.
Qed.

(** The position of a row in the list of rows with its key *)
Lemma rows_with_split keys g i l1 l2 : rows_with keys g = l1 ++ i :: l2 ->
  exists k, i = Z.of_nat k /\ nth_error keys k = Some g /\
    (forall x, In x l1 <-> exists j, x = Z.of_nat j /\ (j < k)%nat /\ nth_error keys j = Some g) /\
    (forall x, In x l2 <-> exists j, x = Z.of_nat j /\ (k < j)%nat /\ nth_error keys j = Some g) /\
    (forall x y a, l2 = x :: a -> In y l2 -> x <= y) /\ (forall x y a, l1 = a ++ [x] -> In y l1 -> y <= x).
Proof.
  intros E.
  assert (Hi : In i (rows_with keys g)) by (rewrite E; apply in_elt).
  apply rows_with_in in Hi as (k & -> & Hk). exists k. split; auto. split; auto.
  assert (SS : forall a b c x y, rows_with keys g = a ++ x :: b ++ y :: c -> x < y).
  { clear. unfold rows_with. intros a b c x y. set (l := filter _ _).
    assert (Ssort : StronglySorted lt l).
    { unfold l. apply sorted_filter, seq_sorted. }
    clearbody l. intros E.
    assert (Sz : StronglySorted Z.lt (map Z.of_nat l)).
    { clear E. induction Ssort; simpl; constructor; auto. rewrite Forall_forall in *. intros z Hz.
      apply in_map_iff in Hz as (m & <- & Hm). specialize (H _ Hm). lia. }
    rewrite E in Sz. clear E. induction a as [|h a IH]; simpl in Sz; inversion Sz as [|? ? Sz2 F]; subst.
    - rewrite Forall_forall in F. apply F. apply in_elt.
    - auto. }
  assert (L1 : forall x, In x l1 -> x < Z.of_nat k).
  { intros x Hx. apply in_split in Hx as (a & b & ->). apply (SS a b l2). rewrite E, <- app_assoc. reflexivity. }
  assert (L2 : forall x, In x l2 -> Z.of_nat k < x).
  { intros x Hx. apply in_split in Hx as (a & b & ->). apply (SS l1 a b). exact E. }
  assert (M : forall j, nth_error keys j = Some g -> In (Z.of_nat j) l1 \/ j = k \/ In (Z.of_nat j) l2).
  { intros j Hj. assert (Hin : In (Z.of_nat j) (rows_with keys g)) by (apply rows_with_in; eauto).
    rewrite E in Hin. apply in_app_or in Hin as [Hin|[Hin|Hin]]; auto. right. left. lia. }
  repeat split.
  - intros Hx. assert (Hr : In x (rows_with keys g)) by (rewrite E; apply in_or_app; auto).
    apply rows_with_in in Hr as (j & -> & Hj). exists j. repeat split; auto. apply L1 in Hx. lia.
  - intros (j & -> & Hl & Hj). destruct (M j Hj) as [H|[H|H]]; auto; [lia|]. apply L2 in H. lia.
  - intros Hx. assert (Hr : In x (rows_with keys g)) by (rewrite E; apply in_or_app; simpl; auto).
    apply rows_with_in in Hr as (j & -> & Hj). exists j. repeat split; auto. apply L2 in Hx. lia.
  - intros (j & -> & Hl & Hj). destruct (M j Hj) as [H|[H|H]]; auto; [|lia]. apply L1 in H. lia.
  - intros x y a -> [->|Hy]; [lia|]. apply in_split in Hy as (b & c & ->).
    specialize (SS (l1 ++ [Z.of_nat k]) b c x y). rewrite E, <- app_assoc in SS. specialize (SS eq_refl). lia.
  - intros x y a -> Hy. apply in_app_or in Hy as [Hy|[->|[]]]; [|lia].
    apply in_split in Hy as (b & c & ->). specialize (SS b c (Z.of_nat k :: l2) y x).
    rewrite E in SS. rewrite <- !app_assoc in SS. simpl in SS. specialize (SS eq_refl). lia.
Qed.

Lemma rows_with_at keys k g : nth_error keys k = Some g -> exists l1 l2, rows_with keys g = l1 ++ Z.of_nat k :: l2.
Proof. intros H. apply in_split. apply rows_with_in. eauto. Qed.

Theorem make_inext w prev keys unique_rows junk :
  0 < w -> 0 <= unique_rows -> all_in_range (unique_rows + 1) keys -> length junk = length keys -> Z.of_nat (length keys) <= 2 ^ (w - 1) ->
  exists res, MakeiNext w prev keys unique_rows junk = Some res /\ length res = length keys /\
    forall i, (i < length keys)%nat -> exists r, nth_error res i = Some r /\
      if prev then prev_same keys (- 2 ^ (w - 1)) i r else next_same keys (- 2 ^ (w - 1)) i r.
Proof.
  intros Hw Hu Ha Lj Hlen. unfold MakeiNext. set (n := Z.to_nat (unique_rows + GB_BASE_INDEX)).
  assert (Hn : Z.of_nat n = unique_rows + 1) by (unfold n, GB_BASE_INDEX; lia).
  replace (unique_rows + GB_BASE_INDEX) with (Z.of_nat n) by (unfold GB_BASE_INDEX; lia).
  rewrite tab_const, next_loop_gloop.
  set (rows := if prev then numbered keys else rev (numbered keys)).
  assert (Hr : forall p, In p rows -> 0 <= fst p < Z.of_nat (length junk)).
  { intros p Hp. rewrite Lj. apply numbered_range. unfold rows in Hp. destruct prev; auto. now apply in_rev. }
  assert (N : NoDup (map fst rows)).
  { assert (N0 : NoDup (map fst (numbered keys))) by (apply enum_nodup; lia).
    unfold rows. destruct prev; auto. rewrite map_fst_rev. now apply NoDup_rev. }
  destruct (gloop_spec (wrap w) n rows (fun _ => int_invalid w) junk Hr N) as (res & E & L & _ & S).
  rewrite E. cbn [option_map snd]. exists res. split; auto. split; [congruence|].
  intros i Hi. destruct (nth_error_lt keys i Hi) as [g Hg].
  assert (Hgr : 0 <= g < Z.of_nat n) by (rewrite Hn; apply Ha; eapply nth_error_In; eauto).
  destruct (rows_with_at _ _ _ Hg) as (l1 & l2 & Es).
  destruct (rows_with_split _ _ _ _ _ Es) as (k & Ek & Hk & P1 & P2 & O2 & O1). apply Nat2Z.inj in Ek. subst k.
  assert (Wid : forall j, (j < length keys)%nat -> wrap w (Z.of_nat j) = Z.of_nat j).
  { intros j Hj. apply wrap_id; auto. assert (0 < 2 ^ (w - 1)) by (apply Z.pow_pos_nonneg; lia). lia. }
  destruct prev.
  - exists (last_of (wrap w) (int_invalid w) l1). split.
    + specialize (S g l1 (Z.of_nat i) l2 Hgr). unfold rows in S. rewrite sel_numbered in S. specialize (S Es).
      rewrite zrd_some in S by lia. now rewrite Nat2Z.id in S.
    + unfold last_of. destruct (rev l1) as [|x r] eqn:Er.
      * right. split; [reflexivity|]. intros k Hk2 Hke. rewrite Hg in Hke.
        assert (l1 = []) by (rewrite <- (rev_involutive l1), Er; reflexivity). subst l1.
        apply (P1 (Z.of_nat k)). exists k. auto.
      * left. assert (El : l1 = rev r ++ [x]) by (rewrite <- (rev_involutive l1), Er; reflexivity).
        destruct (proj1 (P1 x)) as (j & -> & Hj & Hjk); [rewrite El; apply in_elt|].
        exists j. rewrite Wid by lia. repeat split; auto; [congruence|].
        intros k Hk2 Hke. rewrite Hg in Hke. assert (In (Z.of_nat k) l1) by (apply P1; exists k; repeat split; auto; lia).
        specialize (O1 _ _ _ El H). lia.
  - exists (match l2 with [] => int_invalid w | x :: _ => wrap w x end). split.
    + specialize (S g (rev l2) (Z.of_nat i) (rev l1) Hgr). unfold rows in S. rewrite sel_rev, sel_numbered, Es in S.
      rewrite rev_app_distr in S. cbn [rev] in S. rewrite <- app_assoc in S. specialize (S eq_refl).
      rewrite zrd_some in S by lia. rewrite Nat2Z.id in S. rewrite S. unfold last_of. rewrite rev_involutive. reflexivity.
    + destruct l2 as [|x r].
      * right. split; [reflexivity|]. intros k Hk2 Hke. rewrite Hg in Hke.
        apply (P2 (Z.of_nat k)). exists k. repeat split; auto; lia.
      * left. destruct (proj1 (P2 x)) as (j & -> & Hj & Hjk); [simpl; auto|].
        exists j. pose proof (nth_error_Some_lt _ _ _ Hjk). rewrite Wid by lia. repeat split; auto; [congruence|].
        intros k Hk2 Hke. rewrite Hg in Hke. assert (In (Z.of_nat k) (Z.of_nat j :: r)) by (apply P2; exists k; repeat split; auto; lia).
        specialize (O2 _ _ _ eq_refl H0). lia.
Qed.

(** ** GroupByPack32 *)
Lemma chain_spec next l : forall fuel running sorted j0,
  (forall l1 j l2, l = l1 ++ j :: l2 -> 0 <= j /\ zrd next j = Some (hd (-1) l2)) ->
  j0 = hd (-1) l -> (length l < fuel)%nat -> 0 <= running -> running + Z.of_nat (length l) <= Z.of_nat (length sorted) ->
  exists out, chain fuel j0 next sorted running = Some (out, running + Z.of_nat (length l)) /\
    writes (enum 1 running l) sorted = Some out.
Proof.
  induction l as [|j l IH]; intros fuel running sorted j0 H -> Hf H0 Hr; (destruct fuel as [|fuel]; [simpl in Hf; lia|]); cbn [chain hd].
  - simpl. exists sorted. split; auto. f_equal. f_equal. lia.
  - destruct (H [] j l eq_refl) as [Hj Hn]. cbn [length] in *.
    rewrite (proj2 (Z.eqb_neq _ _)) by (unfold GB_INVALID_INDEX; lia).
    cbn [enum writes]. rewrite zwr_some by lia. rewrite Hn.
    destruct (IH fuel (running + 1) (upd sorted (Z.to_nat running) j) (hd (-1) l)) as (out & E & W); auto; try lia.
    + intros l1 j' l2 El. apply (H (j :: l1)). simpl. congruence.
    + rewrite length_upd. lia.
    + exists out. split; auto. rewrite E. f_equal. f_equal. lia.
Qed.

Lemma writes_app_some {A} (a b : list (Z * A)) out : writes (a ++ b) out = match writes a out with Some o => writes b o | None => None end.
Proof. revert out. induction a as [|[i x] a IH]; intros out; simpl; auto. destruct (zwr out i x); auto. Qed.

(* the state after the groups below g *)
Definition pack_inv (keys : list Z) (N g : nat) (s0 : list Z) (p : packed) : Prop :=
  p_running p = Z.of_nat (length (grouped g keys)) /\
  writes (enum 1 0 (grouped g keys)) s0 = Some (p_sort p) /\
  length (p_first p) = N /\ length (p_count p) = N /\
  forall k, (k < g)%nat -> nth_error (p_first p) k = Some (before (count_of keys) (Z.of_nat k)) /\
                           nth_error (p_count p) k = Some (count_of keys (Z.of_nat k)).

Lemma grouped_S g keys : grouped (S g) keys = grouped g keys ++ rows_with keys (Z.of_nat g).
Proof. unfold grouped, zseq. rewrite seq_S, !map_app, concat_app. simpl. now rewrite app_nil_r. Qed.

Lemma pack_heads_spec keys N next s0 m : forall g p,
  (g + m <= N)%nat -> length s0 = length keys ->
  (forall h l1 j l2, rows_with keys h = l1 ++ j :: l2 -> 0 <= h < Z.of_nat N -> zrd next j = Some (hd (-1) l2)) ->
  pack_inv keys N g s0 p ->
  exists p', pack_heads (enum 1 (Z.of_nat g) (map (fun h => hd (-1) (rows_with keys (Z.of_nat h))) (seq g m))) next p = Some p' /\
    pack_inv keys N (g + m) s0 p'.
Proof.
  induction m as [|m IH]; intros g p Hg Ls Hn I; cbn [seq map enum pack_heads].
  - exists p. rewrite Nat.add_0_r. auto.
  - destruct I as (I1 & I2 & I3 & I4 & I5). unfold pack_group.
    rewrite zwr_some by lia.
    assert (LS := writes_length _ _ _ I2). 
    assert (HL : (length (grouped (S g) keys) <= length keys)%nat) by apply grouped_le.
    rewrite grouped_S, app_length in HL.
    destruct (chain_spec next (rows_with keys (Z.of_nat g)) (S (length (p_sort p))) (p_running p) (p_sort p) (hd (-1) (rows_with keys (Z.of_nat g))))
      as (out & -> & W); auto; try lia.
    { intros l1 j l2 E. split.
      - assert (In j (rows_with keys (Z.of_nat g))) by (rewrite E; apply in_elt). apply rows_with_in in H as (k & -> & _). lia.
      - eapply Hn; eauto; lia. }
    rewrite zwr_some by lia.
    replace (Z.of_nat g + 1) with (Z.of_nat (S g)) by lia. replace (g + S m)%nat with (S g + m)%nat by lia.
    apply IH; auto; [lia|].
    unfold pack_inv. cbn [p_running p_sort p_first p_count]. rewrite !length_upd. repeat split; auto.
    + rewrite grouped_S, app_length. lia.
    + rewrite grouped_S, enum_app, writes_app_some, I2. rewrite <- W, I1. f_equal. f_equal. lia.
    + rewrite nth_error_upd. destruct (Nat.eqb_spec (Z.to_nat (Z.of_nat g)) k) as [E|E].
      * rewrite (proj2 (Nat.ltb_lt _ _)) by lia. simpl. f_equal. rewrite I1, grouped_length.
        replace g with k by lia. rewrite <- (zsum_firstn_tab k (count_of keys) (Z.of_nat k)) by lia. rewrite Nat2Z.id.
        rewrite firstn_all2; auto. rewrite tab_length. lia.
      * apply I5. lia.
    + rewrite nth_error_upd. destruct (Nat.eqb_spec (Z.to_nat (Z.of_nat g)) k) as [E|E].
      * rewrite (proj2 (Nat.ltb_lt _ _)) by lia. simpl. f_equal. replace k with g by lia. rewrite rows_with_length. lia.
      * apply I5. lia.
Qed.

Theorem group_by_pack keys numUnique sjunk fjunk cjunk njunk :
  0 <= numUnique -> keys <> [] -> all_in_range (numUnique + 1) keys ->
  length sjunk = length keys -> length njunk = length keys ->
  Z.of_nat (length fjunk) = numUnique + 1 -> Z.of_nat (length cjunk) = numUnique + 1 ->
  exists p, GroupByPack32 keys numUnique sjunk fjunk cjunk njunk = Some p /\
    histogram (numUnique + 1) keys (p_count p) /\
    packed_rows (numUnique + 1) keys (p_count p) (p_sort p) (p_first p) /\ all_rows keys (p_sort p).
Proof.
  intros Hu Hk Ha Ls Ln Lf Lc. unfold GroupByPack32, GroupByPackFixup32.
  set (N := Z.to_nat (numUnique + GB_BASE_INDEX)).
  assert (HN : Z.of_nat N = numUnique + 1) by (unfold N, GB_BASE_INDEX; lia).
  rewrite tab_const. rewrite (fixup_loop_gloop _ (Z.of_nat N)).
  2: { intros [i k] Hp. apply in_rev in Hp. apply numbered_in in Hp as (j & -> & Hj). rewrite HN. apply Ha. eapply nth_error_In; eauto. }
  destruct (gloop_spec (fun i => i) N (rev (numbered keys)) (fun _ => GB_INVALID_INDEX) njunk) as (next & E & L & _ & S).
  { intros p Hp. rewrite Ln. apply numbered_range. now apply in_rev. }
  { rewrite map_fst_rev. apply NoDup_rev. apply enum_nodup. lia. }
  rewrite E. unfold pack_start. 
  assert (0 < length keys)%nat by (destruct keys; simpl; [congruence|lia]).
  rewrite !zwr_some by lia. change (Z.to_nat 0) with 0%nat.
  set (p0 := mkPacked _ _ _ _).
  assert (ET : tab N (fun g => last_of (fun i => i) GB_INVALID_INDEX (sel g (rev (numbered keys)))) = map (fun h => hd (-1) (rows_with keys (Z.of_nat h))) (seq 0 N)).
  { unfold tab. apply map_ext. intros h. unfold last_of. rewrite sel_rev, rev_involutive, sel_numbered. destruct (rows_with keys (Z.of_nat h)); reflexivity. }
  rewrite ET.
  destruct (pack_heads_spec keys N next (upd sjunk 0 GB_INVALID_INDEX) N 0%nat p0) as (p & EP & I).
  - lia.
  - now rewrite length_upd.
  - intros h l1 j l2 Eh Hh.
    specialize (S h (rev l2) j (rev l1) Hh). rewrite sel_rev, sel_numbered, Eh in S.
    rewrite rev_app_distr in S. cbn [rev] in S. rewrite <- app_assoc in S. specialize (S eq_refl). rewrite S.
    unfold last_of. rewrite rev_involutive. destruct l2; reflexivity.
  - unfold pack_inv, p0. cbn [p_running p_sort p_first p_count]. rewrite !length_upd. repeat split; auto; try lia. 
  - change (Z.of_nat 0) with 0 in EP. rewrite EP. exists p. split; auto. destruct I as (I1 & I2 & I3 & I4 & I5). cbn [Nat.add] in *.
    rewrite (writes_enum_prefix _ (grouped N keys) _ (Permutation_refl _)) in I2 by (rewrite length_upd, Ls; apply grouped_le).
    assert (Hc : p_count p = tab N (count_of keys)).
    { apply list_ext. intros k. destruct (Nat.lt_ge_cases k N).
      - rewrite tab_nth by auto. now apply I5.
      - rewrite !nth_error_ge; auto; rewrite ?tab_length; lia. }
    assert (Hfi : p_first p = tab N (before (count_of keys))).
    { apply list_ext. intros k. destruct (Nat.lt_ge_cases k N).
      - rewrite tab_nth by auto. now apply I5.
      - rewrite !nth_error_ge; auto; rewrite ?tab_length; lia. }
    assert (Pg := grouped_perm N keys ltac:(rewrite HN; exact Ha)).
    assert (Lg : length (grouped N keys) = length keys) by (rewrite (Permutation_length Pg); unfold zseq; now rewrite map_length, seq_length).
    rewrite skipn_all2, app_nil_r in I2 by (rewrite length_upd; lia). injection I2 as I2.
    rewrite Hc, Hfi, <- I2, <- HN. split; [apply histogram_tab|].
    split; [|exact Pg]. apply (packed_grouped N keys (grouped N keys) []); [now rewrite app_nil_r | exact Lg].
Qed.

(** ** Witnesses *)
Lemma bincount_rejects ord thr pack futex keys n junk : keys = [] \/ n = 0 -> BinCount ord thr pack futex keys n junk = BC_error.
Proof. intros [->| ->]; unfold BinCount; simpl; auto. now rewrite orb_true_r. Qed.

Lemma inext_truncated :
  exists keys res, all_in_range 2 keys /\ MakeiNext 8 false keys 1 (repeat 0 (length keys)) = Some res /\
    exists r, nth_error res 127 = Some r /\ ~ next_same keys (- 2 ^ 7) 127 r.
Proof.
  exists (repeat 1 130). eexists. split; [intros k Hk; apply repeat_spec in Hk; lia|].
  split; [vm_compute; reflexivity|]. eexists. split; [reflexivity|].
  intros [(j & E & _)|[_ H]]; [lia|]. apply (H 128%nat); [rewrite repeat_length; lia|reflexivity].
Qed.

Lemma pack_out_of_range :
  exists keys n, 0 <= n /\ keys <> [] /\
    GroupByPack32 keys n (repeat 0 (length keys)) (repeat 0 (Z.to_nat n + 1)) (repeat 0 (Z.to_nat n + 1)) (repeat 0 (length keys)) = None.
Proof. exists [5], 1. split; [lia|]. split; [discriminate|]. vm_compute. reflexivity. Qed.
