From Verif Require Import Base SegModel SegSpec.
Local Open Scope Z_scope.

Lemma seg_loop_spec n : forall d r lo hi,
  0 < d -> 0 <= r <= Z.of_nat n -> hi = lo + d * Z.of_nat n + r ->
  let b := seg_loop n d r lo in
  contiguous lo hi b /\ length b = n /\ (forall x, In x b -> d <= band_size x <= d + 1).
Proof.
  induction n as [|n IH]; intros d r lo hi Hd Hr Hhi b; subst b; cbn [seg_loop].
  - simpl. split; [lia|split; [auto|intros x []]].
  - destruct (Z.ltb_spec 0 r) as [H|H]; simpl.
    + destruct (IH d (r - 1) (lo + d + 1) hi) as (A & B & C); try lia.
      split; [repeat split; auto; lia|]. split; [now rewrite B|].
      intros x [<-|Hx]; [unfold band_size; simpl; lia | now apply C].
    + destruct (IH d r (lo + d) hi) as (A & B & C); try lia.
      split; [repeat split; auto; lia|]. split; [now rewrite B|].
      intros x [<-|Hx]; [unfold band_size; simpl; lia | now apply C].
Qed.

Lemma segment_bins_spec bins futex maxc : 0 < bins -> 0 < futex ->
  let b := segment_bins bins futex maxc in
  contiguous 0 bins b /\
  Z.of_nat (length b) = Z.min bins (if 0 <? maxc then Z.min futex maxc else futex) /\
  (forall x y, In x b -> In y b -> Z.abs (band_size x - band_size y) <= 1).
Proof.
  intros Hb Hf. unfold segment_bins.
  assert (Hc : seg_cores bins futex maxc = Z.min bins (if 0 <? maxc then Z.min futex maxc else futex)).
  { unfold seg_cores. destruct (Z.ltb_spec 0 maxc), (Z.ltb_spec maxc futex); cbn [andb];
    match goal with |- context [bins <? ?c] => destruct (Z.ltb_spec bins c) end; lia. }
  rewrite <- Hc. set (c := seg_cores bins futex maxc) in *.
  assert (H0 : 0 < c) by (destruct (Z.ltb_spec 0 maxc); lia).
  assert (Hle : c <= bins) by (destruct (Z.ltb_spec 0 maxc); lia).
  destruct (Z.ltb_spec 0 c); [|lia].
  destruct (seg_loop_spec (Z.to_nat c) (bins / c) (bins mod c) 0 bins) as (A & B & C).
  - apply Z.div_str_pos; lia.
  - assert (M := Z.mod_pos_bound bins c H0). lia.
  - rewrite Z2Nat.id by lia. rewrite (Z.div_mod bins c) at 1 by lia. lia.
  - cbn zeta. split; [exact A|]. split; [lia|].
    intros x y Hx Hy. apply C in Hx. apply C in Hy. lia.
Qed.

Lemma segment_bins_empty bins futex maxc : bins <= 0 -> segment_bins bins futex maxc = [].
Proof.
  intros H. unfold segment_bins.
  assert (E : 0 <? seg_cores bins futex maxc = false); [|now rewrite E].
  apply Z.ltb_ge. unfold seg_cores.
  destruct (Z.ltb_spec 0 maxc), (Z.ltb_spec maxc futex); cbn [andb];
    match goal with |- context [bins <? ?c] => destruct (Z.ltb_spec bins c) end; lia.
Qed.

Lemma contiguous_le bands : forall lo hi, contiguous lo hi bands -> lo <= hi.
Proof. induction bands as [|[l h] t IH]; simpl; intros lo hi H; [lia|]. destruct H as (-> & H1 & H2).
  apply IH in H2. lia. Qed.

(** A contiguous division covers every index exactly once. *)
Lemma contiguous_cover bands : forall lo hi i, contiguous lo hi bands -> lo <= i < hi ->
  exists j b, nth_error bands j = Some b /\ inband i b /\
    forall j' b', nth_error bands j' = Some b' -> inband i b' -> j' = j.
Proof.
  induction bands as [|[l h] t IH]; simpl; intros lo hi i H Hi; [lia|].
  destruct H as (-> & H1 & H2).
  destruct (Z.ltb_spec i h) as [Hlt|Hge].
  - exists 0%nat, (lo, h). split; auto. split; [unfold inband; simpl; lia|].
    intros [|j'] b' Hj Hb; auto. exfalso. simpl in Hj. apply nth_error_In in Hj.
    clear -H2 Hlt Hj Hb. revert h H2 Hlt.
    induction t as [|[l2 h2] t IH]; simpl in *; intros h H2 Hlt; [contradiction|].
    destruct H2 as (-> & H3 & H4). destruct Hj as [<-|Hj].
    + unfold inband in Hb; simpl in Hb; lia.
    + apply (IH Hj h2); auto; lia.
  - destruct (IH h hi i H2 ltac:(lia)) as (j & b & Hj & Hb & Hu).
    exists (S j), b. split; auto. split; auto.
    intros [|j'] b' Hj' Hb'; simpl in Hj'.
    + inversion Hj'; subst. unfold inband in Hb'; simpl in Hb'; lia.
    + f_equal. eapply Hu; eauto.
Qed.

Lemma contiguous_in bands : forall lo hi b, contiguous lo hi bands -> In b bands -> lo <= fst b < snd b /\ snd b <= hi.
Proof.
  induction bands as [|[l h] t IH]; simpl; intros lo hi b H Hb; [contradiction|].
  destruct H as (-> & H1 & H2). destruct Hb as [<-|Hb]; simpl.
  - apply contiguous_le in H2. lia.
  - destruct (IH h hi b H2 Hb). lia.
Qed.

Lemma segment_bins_cover bins futex maxc i : 0 < bins -> 0 < futex -> 0 <= i < bins ->
  exists j b, nth_error (segment_bins bins futex maxc) j = Some b /\ inband i b /\
    forall j' b', nth_error (segment_bins bins futex maxc) j' = Some b' -> inband i b' -> j' = j.
Proof.
  intros Hb Hf Hi. eapply contiguous_cover; [|exact Hi].
  apply (segment_bins_spec bins futex maxc Hb Hf).
Qed.
