(** One column of the result. *)
From Coq Require Import SpecFloat.
From Verif Require Import Base MemLemmas Inter ConvModel ConvSpec StackModel StackSpec StackProofs Stack2Proofs Stack3Proofs Stack4Proofs Stack5Proofs Stack6Proofs.
Local Open Scope Z_scope.

Lemma sum_app a b : sum (a ++ b) = sum a + sum b.
Proof. induction a as [|x a IH]; simpl; auto. unfold sum in *. simpl. lia. Qed.
Lemma starts_nth ls : forall off i, (i < length ls)%nat -> nth_error (starts off ls) i = Some (off + sum (firstn i ls)).
Proof.
  induction ls as [|l ls IH]; intros off i H; simpl in *; [lia|]. destruct i as [|i]; simpl. { f_equal. unfold sum. simpl. lia. }
  rewrite IH by lia. f_equal. unfold sum. simpl. lia.
Qed.
Lemma starts_length ls : forall off, length (starts off ls) = length ls.
Proof. induction ls; intros; simpl; auto. Qed.

Lemma dims_nonneg p : part_ok p -> 0 <= dim0 (fst p) /\ 0 <= product (tl (b_dims (fst p))).
Proof.
  intros H. destruct (po_dims _ H) as [Dn Dp]. unfold dim0. destruct (b_dims (fst p)) as [|d r]; [congruence|]. inversion Dp; subst. simpl. split; auto. now apply product_nonneg.
Qed.
Lemma dataset_nonneg f : file_ok f -> 0 <= dataset_length f.
Proof.
  intros H. pose proof (fo_parts _ H) as P. unfold dataset_length.
  assert (G : forall a, 0 <= a -> 0 <= fold_left (fun l c => let b := fst (co_part c) in if s_dataset f && Z.odd (co_enum c) && (0 <? ndim b) then dim0 b else l) (s_cols f) a); [|apply G; lia].
  induction P as [|c cs Hc P IH]; intros a Ha; simpl; auto. apply IH. destruct (s_dataset f && Z.odd (co_enum c) && (0 <? ndim (fst (co_part c)))); auto.
  apply (dims_nonneg _ Hc).
Qed.
Lemma part_of_ok n f p : file_ok f -> part_of n f = Some p -> part_ok p.
Proof.
  intros H. unfold part_of. destruct (find (fun c => name_eqb (co_name c) n) (s_cols f)) as [c|] eqn:E; [|discriminate].
  simpl. intros [= <-]. apply find_some in E as [E _]. pose proof (fo_parts _ H) as P. rewrite Forall_forall in P. auto.
Qed.
Lemma rows_nonneg n f : file_ok f -> 0 <= rows_of n f.
Proof.
  intros H. pose proof (dataset_nonneg f H). unfold rows_of. destruct (part_of n f) as [[b d]|] eqn:E; auto.
  destruct (Z.eqb_spec (dim0 b) 0); auto. apply part_of_ok in E; auto. destruct (dims_nonneg _ E) as [G _]. exact G.
Qed.
Lemma calc_rows n f : calc_length (part_of n f) (dataset_length f) = rows_of n f.
Proof. unfold calc_length, rows_of. destruct (part_of n f) as [[b d]|]; auto. Qed.

Section column.
Variables (n : name) (k : block) (total : Z).
Hypothesis Hk : king_ok k.
Hypothesis Hprod : 0 <= product (tl (b_dims k)).
Hypothesis order : rotated k = false.
Hypothesis small : total * product (tl (b_dims k)) < 2 ^ 31.

Definition good_file (f : sfile) : Prop := file_ok f /\
  match part_of n f with
  | Some (b, d) => fits k b /\ in_place k b /\ (dim0 b = 0 -> dataset_length f = 0)
  | None => of_num (fixed k) <> Some F80
  end.

Lemma file_task f off rows c : good_file f -> answer_part k (part_of n f) c -> rows_of n f <= rows <= total ->
  exists q, DecompressMultiArray k total off rows (part_of n f) c = Some (map (shift (row_size k * off)) q) /\
  forall R, len R = rows * row_size k -> exists ys junk, run q R = Some (concat ys ++ junk) /\ contributes n k f ys /\ room_of n k f ys.
Proof.
  intros [Hf G] A Hr. pose proof (rows_nonneg n f Hf) as Rn.
  assert (Sm : rows * product (tl (b_dims k)) < 2 ^ 31) by nia. pose proof (item_pos k (proj1 Hk)) as Ik.
  unfold contributes, room_of. unfold rows_of in *. destruct (part_of n f) as [[b d]|] eqn:E.
  - destruct G as (G1 & G2 & G3). pose proof (part_of_ok n f (b, d) Hf E) as Hp. destruct (dims_nonneg _ Hp) as [D0 D1]. cbn [fst] in D0, D1.
    assert (Rd : (if dim0 b =? 0 then dataset_length f else dim0 b) = dim0 b) by (destruct (Z.eqb_spec (dim0 b) 0) as [Z0|]; auto; rewrite Z0; auto).
    rewrite Rd in *. destruct (task_part k b d Hp order G1 G2 total off rows c A ltac:(lia) Sm) as (q & Q1 & Q2). exists q. split; auto.
    intros R HR. destruct (Q2 R HR) as (ys & junk & Y1 & Y2 & Y3). exists ys, junk. split; auto. split; auto. split; auto.
    rewrite <- (forall2_len _ _ _ Y2). destruct (items_ok (b, d) Hp (item_pos b (po_type _ Hp))) as (_ & I2 & _). rewrite I2. cbn [fst].
    rewrite (product_cons b); [|apply (po_dims _ Hp)]. destruct G1 as [-> _]. reflexivity.
  - destruct (task_gap k total off rows (dataset_length f) c) as (q & Q1 & Q2); auto; try lia. { destruct Hk as [[T|T] _]; auto. }
    exists q. split; auto. intros R HR. destruct (Q2 R HR) as (junk & Y1). eexists _, junk. split; [exact Y1|]. split; auto.
    rewrite repeat_length. split. { rewrite Z2Nat.id; [auto|]. apply Z.mul_nonneg_nonneg; auto; lia. }
    apply Forall_forall. intros y Hy. apply repeat_spec in Hy. subst y. unfold blank. destruct Hk as [[(t & T1 & T2)|Tk] _].
    + rewrite T1, T2. apply len_enc.
    + destruct (text_fixed k Tk) as (_ & -> & _). rewrite len_repeat. lia.
Qed.

Lemma all_tasks : forall fs f cs off, Forall good_file (f :: fs) -> Forall2 (answer_part k) (map (part_of n) (f :: fs)) cs ->
  0 <= off -> off + sum (map (rows_of n) (f :: fs)) <= total ->
  exists progs, tasks k total (starts off (map (rows_of n) (f :: fs))) (map (part_of n) (f :: fs)) cs = map Some progs /\
  forall R, len R = (total - off) * row_size k -> exists rs rs' bodies junk, R = concat rs /\ regions (row_size k * off) rs progs rs' /\
    concat rs' = concat (concat bodies) ++ junk /\ Forall2 (contributes n k) (f :: fs) bodies /\ Forall2 (room_of n k) (f :: fs) bodies.
Proof.
  pose proof (item_pos k (proj1 Hk)) as Ik. assert (Rk : 0 <= row_size k) by (apply item_nonneg_row; auto).
  induction fs as [|g fs IH]; intros f cs off Hg Ha Ho Hs.
  - inversion Hg as [|x l Gf _]; subst x l. inversion Ha as [|x c l cs' A Ha']; subst. inversion Ha'; subst. cbn [map starts tasks hd].
    unfold sum in Hs. cbn [map fold_right] in Hs.
    destruct (file_task f off (total - off) c Gf A ltac:(lia)) as (q & Q1 & Q2). rewrite Q1.
    exists [map (shift (row_size k * off)) q]. split; auto. intros R HR. destruct (Q2 R HR) as (ys & junk & Y1 & Y2 & Y3).
    exists [R], [concat ys ++ junk], [ys], junk. split. { simpl. now rewrite app_nil_r. } split. { apply reg_cons; auto. constructor. }
    split. { simpl. now rewrite !app_nil_r. } auto.
  - inversion Hg as [|x l Gf Gr]; subst x l. inversion Ha as [|x c l cs' A Ha']; subst.
    assert (Es : sum (map (rows_of n) (f :: g :: fs)) = rows_of n f + sum (map (rows_of n) (g :: fs))) by reflexivity. rewrite Es in Hs.
    pose proof (rows_nonneg n f (proj1 Gf)) as Rn.
    assert (Rs : 0 <= sum (map (rows_of n) (g :: fs))).
    { clear - Gr. induction Gr as [|x l [G _] Gr IH]; unfold sum in *; simpl; [lia|]. pose proof (rows_nonneg n x G). lia. }
    destruct (IH g cs' (off + rows_of n f) Gr Ha' ltac:(lia) ltac:(lia)) as (progs & P1 & P2).
    destruct (file_task f off (rows_of n f) c Gf A ltac:(lia)) as (q & Q1 & Q2).
    exists (map (shift (row_size k * off)) q :: progs). split.
    { change (tasks k total (starts off (map (rows_of n) (f :: g :: fs))) (map (part_of n) (f :: g :: fs)) (c :: cs')) with
        (DecompressMultiArray k total off (off + rows_of n f - off) (part_of n f) c :: tasks k total (starts (off + rows_of n f) (map (rows_of n) (g :: fs))) (map (part_of n) (g :: fs)) cs').
      rewrite P1. replace (off + rows_of n f - off) with (rows_of n f) by lia. rewrite Q1. reflexivity. }
    intros R HR.
    assert (A1 : 0 <= rows_of n f * row_size k) by nia. assert (A2 : rows_of n f * row_size k <= (total - off) * row_size k) by nia.
    destruct (split3 R 0 (rows_of n f * row_size k)) as (a & R1 & R2 & -> & La & L1); try lia.
    destruct a; [|unfold len in La; simpl in La; lia]. cbn [app] in *. rewrite len_app in HR.
    destruct (Q2 R1 L1) as (ys & junk1 & Y1 & Y2 & Y3).
    assert (J : junk1 = []).
    { apply run_len in Y1. rewrite len_app, L1 in Y1. destruct Y3 as [Y3 Y4]. rewrite (len_concat_all _ _ Y4), Y3 in Y1.
      assert (len junk1 = 0). { unfold row_size in Y1. replace (rows_of n f * (b_item k * product (tl (b_dims k)))) with (rows_of n f * product (tl (b_dims k)) * b_item k) in Y1 by ring. lia. }
      destruct junk1; auto. unfold len in H. simpl in H. lia. }
    subst junk1. rewrite app_nil_r in Y1.
    destruct (P2 R2) as (rs & rs' & bodies & junk & E1 & E2 & E3 & E4 & E5). { lia. }
    exists (R1 :: rs), (concat ys :: rs'), (ys :: bodies), junk. split. { simpl. congruence. } split.
    { apply reg_cons; auto. rewrite L1. replace (row_size k * off + rows_of n f * row_size k) with (row_size k * (off + rows_of n f)) by ring. exact E2. }
    split. { simpl. rewrite E3, concat_app, app_assoc. reflexivity. } auto.
Qed.
End column.

(** ** The plan of a column *)
Definition set_rows (m : block) (total : Z) : block := B (b_dtype m) (b_item m) (match b_dims m with [] => [] | _ :: r => total :: r end) (b_c m) (b_f m).
Lemma set_rows_fits m total o : fits m o -> fits (set_rows m total) o.
Proof. unfold fits. cbn [set_rows b_dims b_item b_dtype]. intros [H1 H2]. split; auto. destruct (b_dims m); auto. Qed.
Lemma set_rows_king m total : king_ok m -> king_ok (set_rows m total).
Proof. unfold king_ok. cbn [set_rows b_dims]. intros [H1 H2]. split; auto. destruct (b_dims m); congruence. Qed.
Lemma set_rows_wide m total o : wide_enough m o -> wide_enough (set_rows m total) o.
Proof. intros [H1 H2]. split; [now apply set_rows_fits|auto]. Qed.

Lemma plan_king fs reserve kg : Forall file_ok fs -> king_good fs kg ->
  let p := stack_column reserve (map dataset_length fs) kg in
  let rows := map (rows_of (k_name kg)) fs in
  p_name p = k_name kg /\ p_enum p = k_enum kg /\ p_rows p = sum rows + reserve (sum rows) /\ p_offsets p = starts 0 rows ++ [p_rows p] /\
  king_ok (p_block p) /\ Forall (wide_part (p_block p)) (map (part_of (k_name kg)) fs) /\
  exists cs, Forall2 (answer_part (p_block p)) (map (part_of (k_name kg)) fs) cs /\
    p_tasks p = tasks (p_block p) (p_rows p) (starts 0 rows) (map (part_of (k_name kg)) fs) cs.
Proof.
  intros Hf [K1 K2 K3 K4]. cbv zeta. unfold stack_column.
  assert (El : map (fun x => calc_length (fst x) (snd x)) (combine (k_parts kg) (map dataset_length fs)) = map (rows_of (k_name kg)) fs).
  { rewrite K1. clear. induction fs as [|f fs IH]; simpl; auto. rewrite IH, calc_rows. reflexivity. }
  rewrite El. fold sum. destruct (recheck_grow _ _ K3 K4) as (m1 & cs1 & E1 & M1 & M2 & M3 & M4 & _). rewrite E1. cbn [fst].
  destruct (recheck_stays _ _ M1 M4) as (cs & E2 & A). rewrite E2. rewrite K1 in *.
  cbn [p_name p_enum p_rows p_offsets p_block p_tasks].
  set (total := fold_right Z.add 0 (map (rows_of (k_name kg)) fs) + reserve (fold_right Z.add 0 (map (rows_of (k_name kg)) fs))).
  fold (set_rows m1 total).
  split; auto. split; auto. split; auto. split; auto. split. { now apply set_rows_king. } split.
  { eapply Forall_impl; [|exact M4]. intros [[o d]|]; simpl; auto. intros [H1 H2]. split; auto. now apply set_rows_wide. }
  exists cs. split; auto.
Qed.

Lemma valid_nonempty must reserve fs ps : ReadAndStackFiles must reserve fs = Some ps -> valid_files fs <> [] /\
  t_problems (scan (length (valid_files fs)) 0 (valid_files fs) (Tb [] 0)) = 0 /\
  ps = map (stack_column reserve (map dataset_length (valid_files fs))) (t_kings (scan (length (valid_files fs)) 0 (valid_files fs) (Tb [] 0))).
Proof.
  unfold ReadAndStackFiles. destruct (must && _); [discriminate|]. destruct (Nat.eqb_spec (length (valid_files fs)) 0) as [|N]; [discriminate|].
  destruct (Z.eqb_spec (t_problems (scan (length (valid_files fs)) 0 (valid_files fs) (Tb [] 0))) 0) as [E|]; cbn [negb]; [|discriminate].
  intros H. apply some_inj in H. split; [|auto]. intros E'. rewrite E' in N. auto.
Qed.
Lemma plan_of must reserve fs ps p : ReadAndStackFiles must reserve fs = Some ps -> Forall file_ok (valid_files fs) -> In p ps ->
  exists kg, king_good (valid_files fs) kg /\ p = stack_column reserve (map dataset_length (valid_files fs)) kg.
Proof.
  intros H Hf Hp. destruct (valid_nonempty _ _ _ _ H) as (_ & P & ->). destruct (scan_ok _ Hf P) as [_ G].
  apply in_map_iff in Hp as (kg & <- & Hk). rewrite Forall_forall in G. eauto.
Qed.

Lemma column_names must reserve fs ps : ReadAndStackFiles must reserve fs = Some ps -> Forall file_ok (valid_files fs) ->
  map p_name ps = all_names (valid_files fs) /\
  Forall (fun p => exists c, find (fun c => name_eqb (co_name c) (p_name p)) (concat (map s_cols (valid_files fs))) = Some c /\ p_enum p = co_enum c) ps.
Proof.
  intros H Hf. destruct (valid_nonempty _ _ _ _ H) as (_ & P & E). destruct (scan_ok _ Hf P) as [N G]. split.
  - rewrite <- N, E, map_map. apply map_ext_in. intros kg Hk. rewrite Forall_forall in G. apply (plan_king _ reserve kg Hf (G kg Hk)).
  - apply Forall_forall. intros p Hp. destruct (plan_of _ _ _ _ _ H Hf Hp) as (kg & Gk & ->). destruct (plan_king _ reserve kg Hf Gk) as (Q1 & Q2 & _).
    rewrite Q1, Q2. apply (kg_enum _ _ Gk).
Qed.
Lemma column_rows must reserve fs ps p : ReadAndStackFiles must reserve fs = Some ps -> Forall file_ok (valid_files fs) -> In p ps ->
  let rows := map (rows_of (p_name p)) (valid_files fs) in
  p_rows p = sum rows + reserve (sum rows) /\ length (p_offsets p) = S (length (valid_files fs)) /\
  (forall i, (i < length (valid_files fs))%nat -> nth_error (p_offsets p) i = Some (sum (firstn i rows))) /\
  nth_error (p_offsets p) (length (valid_files fs)) = Some (p_rows p).
Proof.
  intros H Hf Hp. cbv zeta. destruct (plan_of _ _ _ _ _ H Hf Hp) as (kg & Gk & ->). destruct (plan_king _ reserve kg Hf Gk) as (Q1 & _ & Q3 & Q4 & _).
  rewrite Q1, Q4. rewrite Q3 at 1. rewrite Q3. split; auto. split. { rewrite app_length, starts_length, map_length. simpl. lia. } split.
  - intros i Hi. rewrite nth_error_app1 by (rewrite starts_length, map_length; auto). rewrite starts_nth by now rewrite map_length. reflexivity.
  - rewrite nth_error_app2 by (rewrite starts_length, map_length; auto). rewrite starts_length, map_length, Nat.sub_diag. reflexivity.
Qed.
Lemma column_types must reserve fs ps p f b d : ReadAndStackFiles must reserve fs = Some ps -> Forall file_ok (valid_files fs) -> In p ps ->
  In f (valid_files fs) -> part_of (p_name p) f = Some (b, d) ->
  tl (b_dims (p_block p)) = tl (b_dims b) /\
  ((exists t u, of_num (fixed b) = Some t /\ of_num (fixed (p_block p)) = Some u /\ b_item (p_block p) = size u /\ kept t u) \/
   (text_block b /\ text_block (p_block p) /\
    ((b_dtype b = b_dtype (p_block p) /\ b_item b <= b_item (p_block p)) \/
     (b_dtype b = SDS_STRING /\ b_dtype (p_block p) = SDS_UNICODE /\ 4 * b_item b <= b_item (p_block p))))).
Proof.
  intros H Hf Hp Hin E. destruct (plan_of _ _ _ _ _ H Hf Hp) as (kg & Gk & ->). destruct (plan_king _ reserve kg Hf Gk) as (Q1 & _ & _ & _ & _ & W & _).
  rewrite Q1 in E. rewrite Forall_forall in W. assert (Hm : In (Some (b, d)) (map (part_of (k_name kg)) (valid_files fs))) by (apply in_map_iff; exists f; auto).
  destruct (W _ Hm) as (_ & [T F] & W2). split; auto. destruct F as [(t & u & F1 & F2 & F3 & F4 & F5)|(To & Tk & F)].
  - left. exists t, u. split; auto. split; auto. split; auto. apply (below_parts _ _ F5).
  - right. split; auto. split; auto. destruct F as [F|[F1 F2]]; auto. right. split; auto. split; auto.
    destruct (text_fixed _ To) as (Fo & _). destruct (text_fixed _ Tk) as (Fk & _).
    assert (b_item b * 4 <= b_item (p_block (stack_column reserve (map dataset_length (valid_files fs)) kg))); [|lia]. apply W2; auto. rewrite Fo, Fk, F1, F2. discriminate.
Qed.

Lemma column_data must reserve fs ps p : ReadAndStackFiles must reserve fs = Some ps -> Forall file_ok (valid_files fs) -> (forall n, 0 <= n -> 0 <= reserve n) -> In p ps ->
  stackable (valid_files fs) p ->
  exists progs, p_tasks p = map Some progs /\
  forall l mem, interleave progs l -> len mem = p_bytes p ->
  exists bodies junk, run l mem = Some (concat (concat bodies) ++ junk) /\
    Forall2 (contributes (p_name p) (p_block p)) (valid_files fs) bodies /\ Forall2 (room_of (p_name p) (p_block p)) (valid_files fs) bodies.
Proof.
  intros H Hf Hr Hp [S1 S2 S3 S4]. destruct (valid_nonempty _ _ _ _ H) as (Ne & _).
  destruct (plan_of _ _ _ _ _ H Hf Hp) as (kg & Gk & ->). destruct (plan_king _ reserve kg Hf Gk) as (Q1 & _ & Q3 & _ & Qk & Qw & cs & Qa & Qt).
  set (p := stack_column reserve (map dataset_length (valid_files fs)) kg) in *. clearbody p. rewrite Q1 in *. set (n := k_name kg) in *. set (vs := valid_files fs) in *.
  assert (Prod : 0 <= product (tl (b_dims (p_block p)))).
  { destruct (kg_enum _ _ Gk) as (c & Fc & _). apply find_some in Fc as [Fc1 Fc2]. apply in_concat in Fc1 as (cols & Fc1 & Fc3). apply in_map_iff in Fc1 as (f & <- & Fi).
    destruct (part_of n f) as [[b d]|] eqn:E.
    - rewrite Forall_forall in Qw. assert (Hm : In (Some (b, d)) (map (part_of n) vs)) by (apply in_map_iff; exists f; auto). destruct (Qw _ Hm) as (_ & [T _] & _). rewrite <- T.
      rewrite Forall_forall in Hf. pose proof (part_of_ok n f (b, d) (Hf f Fi) E) as Po. apply (dims_nonneg _ Po).
    - exfalso. unfold part_of in E. destruct (find (fun c0 => name_eqb (co_name c0) n) (s_cols f)) eqn:G; [discriminate|]. pose proof (find_none _ _ G c Fc3) as X. cbv beta in X. fold n in Fc2. congruence. }
  assert (Gf : Forall (good_file n (p_block p)) vs).
  { apply Forall_forall. intros f Fi. rewrite Forall_forall in Hf. split; auto. destruct (part_of n f) as [[b d]|] eqn:E; [|now apply (S4 f)].
    destruct (S3 f b d Fi E) as [G1 G2]. split; auto. rewrite Forall_forall in Qw. assert (Hm : In (Some (b, d)) (map (part_of n) vs)) by (apply in_map_iff; exists f; auto).
    destruct (Qw _ Hm) as (_ & W & _). exact W. }
  assert (Rs : 0 <= sum (map (rows_of n) vs)). { clear - Hf. induction Hf as [|f l H Hf IH]; unfold sum in *; simpl; [lia|]. pose proof (rows_nonneg n f H). lia. }
  specialize (Hr _ Rs). destruct vs as [|f r] eqn:Ev; [congruence|].
  destruct (all_tasks n (p_block p) (p_rows p) Qk Prod S1 S2 r f cs 0 Gf Qa ltac:(lia) ltac:(lia)) as (progs & P1 & P2).
  exists progs. split. { rewrite Qt. exact P1. }
  intros l mem Hl Hm. destruct (P2 mem) as (rs & rs' & bodies & junk & E1 & E2 & E3 & E4 & E5). { unfold p_bytes in Hm. rewrite Hm. f_equal. lia. }
  exists bodies, junk. split; auto. rewrite Z.mul_0_r in E2. rewrite E1, (run_regions _ _ Hl _ _ E2). now rewrite E3.
Qed.
