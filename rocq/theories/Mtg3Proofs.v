(** Proofs about membership in a haystack of several slices. *)
From Verif Require Import Base Mem MemLemmas Inter HashModel HashSpec MtgModel MtgSpec MtgProofs Mtg2Proofs.
Local Open Scope Z_scope.

Lemma mod_bucket_some nb x : (0 < nb)%nat -> mod_bucket nb (Some x) = Some (Z.to_nat (u64 x mod Z.of_nat nb)).
Proof. intros H. destruct nb as [|[|nb]]; [lia| |reflexivity]. cbn [mod_bucket]. rewrite Z.mod_1_r. reflexivity. Qed.
Lemma bucket_lt nb v : (0 < nb)%nat -> (Z.to_nat (v mod Z.of_nat nb) < nb)%nat.
Proof. intros H. pose proof (Z.mod_pos_bound v (Z.of_nat nb) ltac:(lia)). lia. Qed.
Lemma Forall2_map_both {A B C} (R : B -> C -> Prop) (f : A -> B) (g : A -> C) l : (forall x, In x l -> R (f x) (g x)) -> Forall2 R (map f l) (map g l).
Proof. induction l as [|x l IH]; intros H; cbn; constructor; [apply H; now left|apply IH; intros; apply H; now right]. Qed.
Lemma splitters_ok {A B C} (f : A -> option B) (P : B -> C -> Prop) rs ds : Forall2 (fun r l => exists m, f r = Some m /\ P m l) rs ds ->
  exists calls, all_some (map f rs) = Some calls /\ Forall2 P calls ds.
Proof.
  induction 1 as [|r l rs ds (m & E & M) F (calls & C1 & C2)]; [exists []; split; [reflexivity|constructor]|].
  exists (m :: calls). cbn. rewrite E, C1. split; [reflexivity|constructor; assumption].
Qed.

Section Many.
  Context (G : Z) (B : nat) (ord : sched) (b : list Z) (q r : Z).
  Hypothesis FAIR : fair ord.
  Let n := Z.of_nat (length b).
  Hypothesis N : n = G * q + r.
  Hypothesis R : 1 <= r <= G - 2.
  Hypothesis Q : 0 <= q.
  Hypothesis N63 : n < 2 ^ 63.
  Let nb := S (Z.to_nat q).
  Let w := index_bits n.
  Let bof := fun k : Z => mod_bucket nb (Some k).

  Lemma many_slices : num_slices G n = nb.
  Proof.
    unfold num_slices, nb. replace ((n + G - 1) / G) with (q + 1); [lia|]. apply Z.div_unique with (r - 1); [lia|]. rewrite N. ring.
  Qed.
  Lemma w_ok : 1 < w /\ n < 2 ^ (w - 1).
  Proof. assert (0 <= n) by (unfold n; lia). destruct (index_bits_ok n ltac:(lia)) as [[A _] C]. now split. Qed.
  Lemma q_small : (Z.to_nat q <= Z.to_nat (n * 1))%nat.
  Proof. assert (q <= n) by nia. lia. Qed.

  Definition bounds (i : nat) : Z * Z := (G * Z.of_nat i, Z.min (G * (Z.of_nat i + 1)) n).
  Definition portion (i : nat) : list (Z * Z) := enum 1 (G * Z.of_nat i) (part b (G * Z.of_nat i) (Z.min (G * (Z.of_nat i + 1)) n)).
  Lemma many_ranges : ranges w G (wrap w n) 1 (S (S (Z.to_nat (n * 1)))) 0 = Some (map bounds (seq 0 nb)).
  Proof.
    destruct w_ok as [W1 W2]. pose proof q_small. assert (0 < n) by nia. rewrite wrap_small by lia.
    pose proof (ranges_num w G n W1 ltac:(lia) ltac:(lia) q r N R Q (Z.to_nat q) (S (S (Z.to_nat (n * 1)))) 0 ltac:(lia) ltac:(lia) ltac:(lia)) as H1.
    rewrite Z.mul_0_r in H1. rewrite H1. reflexivity.
  Qed.
  Lemma bounds_ok i : (i < nb)%nat -> 0 <= G * Z.of_nat i /\ G * Z.of_nat i < Z.min (G * (Z.of_nat i + 1)) n /\ Z.min (G * (Z.of_nat i + 1)) n <= n.
  Proof. intros Hi. unfold nb in Hi. assert (Z.of_nat i <= q) by lia. nia. Qed.
  Lemma portion_in i p x : (i < nb)%nat -> In (p, x) (portion i) <-> (exists k, p = Z.of_nat k /\ nth_error b k = Some x /\ G * Z.of_nat i <= p < G * (Z.of_nat i + 1)).
  Proof.
    intros Hi. destruct (bounds_ok i Hi) as (B1 & B2 & B3). unfold portion. rewrite enum_in. split.
    - intros (k & E & ->). rewrite part_nth in E by assumption. destruct (Z.ltb_spec (Z.of_nat k) (Z.min (G * (Z.of_nat i + 1)) n - G * Z.of_nat i)); [|discriminate].
      exists (Z.to_nat (G * Z.of_nat i) + k)%nat. split; [lia|]. split; [assumption|lia].
    - intros (k & -> & E & Hk). exists (k - Z.to_nat (G * Z.of_nat i))%nat. split; [|lia]. rewrite part_nth by assumption.
      assert (Z.of_nat k < n) by (apply nth_error_Some_lt in E; unfold n; lia).
      destruct (Z.ltb_spec (Z.of_nat (k - Z.to_nat (G * Z.of_nat i))) (Z.min (G * (Z.of_nat i + 1)) n - G * Z.of_nat i)); [|lia].
      rewrite <- E. f_equal. lia.
  Qed.
  Lemma portion_fit i : (i < nb)%nat -> Forall (fit bof nb) (portion i).
  Proof.
    intros Hi. apply Forall_forall. intros [p x] I. apply portion_in in I as (k & -> & _ & _); [|assumption]. split; [cbn [fst]; lia|].
    exists (Z.to_nat (u64 x mod Z.of_nat nb)). unfold bof. cbn [snd]. rewrite mod_bucket_some by (unfold nb; lia). split; [reflexivity|apply bucket_lt; unfold nb; lia].
  Qed.
  Lemma bounds_nz i : (i < nb)%nat -> bounds i <> (0, 0).
  Proof. intros Hi C. destruct (bounds_ok i Hi) as (B1 & B2 & B3). unfold bounds in C. injection C as C1 C2. lia. Qed.
  Lemma portion_loads i : (i < nb)%nat -> loads (num_load b) (positions w (fst (bounds i)) (snd (bounds i))) = Some (portion i).
  Proof. intros Hi. destruct (bounds_ok i Hi) as (B1 & B2 & B3). destruct w_ok. unfold bounds, portion. cbn [fst snd]. apply loads_part; unfold n in *; lia. Qed.

  (** a part without a value for some bucket: the first item of an empty vector *)
  Lemma many_missing mix a i c : (i < nb)%nat -> (c < nb)%nat -> ~ has_class G b nb i c -> member_num G B ord Z.eqb (fun x => Some x) mix a b = UB.
  Proof.
    intros Hi Hc HM. unfold member_num, is_member_tg. fold n. fold w. rewrite many_ranges, many_slices.
    rewrite (all_some_none _ _ (bounds i)); [reflexivity|apply in_map, in_seq; lia|].
    apply splitter_missing with (l := portion i) (b := c); [now apply bounds_nz|now apply portion_loads|now apply portion_fit|assumption|].
    apply filter_none. intros [p x] I. apply portion_in in I as (k & -> & E & Hk); [|assumption]. unfold in_b. cbn [snd]. rewrite mod_bucket_some by (unfold nb; lia).
    destruct (Nat.eqb_spec (Z.to_nat (u64 x mod Z.of_nat nb)) c) as [E2|]; [|reflexivity]. exfalso. apply HM. exists k, x. split; [assumption|]. split; [assumption|].
    unfold u64 in E2. pose proof (Z.mod_pos_bound (x mod 2 ^ 64) (Z.of_nat nb) ltac:(unfold nb; lia)). lia.
  Qed.

  Hypothesis ALL : forall i c, (i < nb)%nat -> (c < nb)%nat -> has_class G b nb i c.
  Lemma portion_all i c : (i < nb)%nat -> (c < nb)%nat -> filter (in_b bof c) (portion i) <> [].
  Proof.
    intros Hi Hc. destruct (ALL i c Hi Hc) as (k & x & Hk & E & M).
    assert (I : In (Z.of_nat k, x) (filter (in_b bof c) (portion i))).
    { apply filter_In. split; [apply portion_in; [assumption|eauto]|]. unfold in_b, bof. cbn [snd]. rewrite mod_bucket_some by (unfold nb; lia). apply Nat.eqb_eq. unfold u64. rewrite M. lia. }
    intros C. rewrite C in I. destruct I.
  Qed.
  Lemma many_calls : exists calls, all_some (map (splitter (num_load b) bof w B nb) (map bounds (seq 0 nb))) = Some calls /\
    Forall2 (fun msgs l => forall c, (c < nb)%nat -> concat (sent_to c msgs) = filter (in_b bof c) l) calls (map portion (seq 0 nb)).
  Proof.
    apply splitters_ok. apply Forall2_map_both. intros i I. apply in_seq in I. assert (Hi : (i < nb)%nat) by lia.
    apply splitter_ok; [now apply bounds_nz|now apply portion_loads|now apply portion_fit|]. intros c Hc. now apply portion_all.
  Qed.
  Lemma many_rows mix a : mixes mix -> exists calls D,
    Forall2 (fun msgs l => forall c, (c < nb)%nat -> concat (sent_to c msgs) = filter (in_b bof c) l) calls (map portion (seq 0 nb)) /\
    (forall c, D c = concat (mix c (map (sent_to c) calls))) /\
    (forall c d, (c < nb)%nat -> In d (D c) <-> exists l, In l (map portion (seq 0 nb)) /\ In d l /\ in_b bof c d = true) /\
    member_num G B ord Z.eqb (fun x => Some x) mix a b = Ret (map (fun x => row_of w (find (fun d => snd d =? x) (D (Z.to_nat (u64 x mod Z.of_nat nb))))) a).
  Proof.
    intros MIX. destruct many_calls as (calls & C1 & C2). destruct w_ok as [W1 W2]. exists calls.
    destruct (is_member_calls Z.eqb (fun nb k => mod_bucket nb (Some k)) w G B mix ord W1 ltac:(intros x y E; apply Z.eqb_eq in E; subst; apply Z.eqb_refl)
      ltac:(intros x y z E F; apply Z.eqb_eq in E, F; subst; apply Z.eqb_refl) MIX FAIR n 1 (num_load b) calls (map bounds (seq 0 nb)) (map portion (seq 0 nb))
      (map (fun k => (k, mod_bucket nb (Some k))) a) (repeat (false, 0) (length a)) many_ranges) as (D & D0 & D1 & _ & E).
    - rewrite many_slices. exact C1.
    - rewrite many_slices. exact C2.
    - apply Forall_forall. intros l I. apply in_map_iff in I as (i & <- & I). apply in_seq in I. apply Forall_forall. intros [p x] J. apply portion_in in J as (k & -> & J & _); [|lia].
      apply nth_error_Some_lt in J. unfold small. cbn [fst]. unfold n in *. lia.
    - now rewrite repeat_length, map_length.
    - intros k c I. rewrite many_slices. apply in_map_iff in I as (y & Y & _). apply pair_equal_spec in Y as [<- <-]. rewrite mod_bucket_some by (unfold nb; lia). eexists. split; [reflexivity|]. apply bucket_lt. unfold nb. lia.
    - exists D. split; [exact C2|]. split; [exact D0|]. split; [intros c d Hc; rewrite D1 by (rewrite many_slices; assumption); rewrite many_slices; reflexivity|].
      unfold member_num. fold n. fold w. rewrite many_slices. rewrite map_map in E. etransitivity; [exact E|]. rewrite map_map. f_equal. apply map_ext. intros x. cbn [fst snd].
      rewrite mod_bucket_some by (unfold nb; lia). reflexivity.
  Qed.
  Lemma many_ok mix a : mixes mix -> exists res, member_num G B ord Z.eqb (fun x => Some x) mix a b = Ret res /\ occurs_spec eq (- 2 ^ (w - 1)) b a res.
  Proof.
    intros MIX. destruct (many_rows mix a MIX) as (calls & D & _ & _ & DI & E). eexists. split; [exact E|]. apply Forall2_map_r. intros x _.
    assert (Hc : (Z.to_nat (u64 x mod Z.of_nat nb) < nb)%nat) by (apply bucket_lt; unfold nb; lia). set (c := Z.to_nat (u64 x mod Z.of_nat nb)) in *.
    destruct (find (fun d => snd d =? x) (D c)) as [[p y]|] eqn:F; cbn [row_of].
    - apply find_some in F as [I F]. cbn in F. apply Z.eqb_eq in F. subst y. apply DI in I as (l & L1 & L2 & _); [|assumption].
      apply in_map_iff in L1 as (i & <- & L1). apply in_seq in L1. apply portion_in in L2 as (k & -> & L2 & _); [|lia]. left. exists k, x. cbn [fst]. auto.
    - right. split; [|reflexivity]. intros y I <-. apply In_nth_error in I as (k & Ek). assert (Hk : Z.of_nat k < n) by (apply nth_error_Some_lt in Ek; unfold n; lia).
      assert (HG : 0 < G) by lia. set (i := Z.to_nat (Z.of_nat k / G)).
      assert (Hi : (i < nb)%nat). { unfold i, nb. assert (Z.of_nat k / G < q + 1); [|lia]. apply Z.div_lt_upper_bound; [lia|]. nia. }
      assert (I : In (Z.of_nat k, x) (D c)).
      { apply DI; [assumption|]. exists (portion i). split; [apply in_map, in_seq; lia|]. split.
        - apply portion_in; [assumption|]. exists k. split; [reflexivity|]. split; [assumption|]. unfold i. pose proof (Z.div_pos (Z.of_nat k) G ltac:(lia) HG).
          pose proof (Z.div_mod (Z.of_nat k) G ltac:(lia)). pose proof (Z.mod_pos_bound (Z.of_nat k) G HG). rewrite Z2Nat.id by assumption. lia.
        - unfold in_b, bof. cbn [snd]. rewrite mod_bucket_some by (unfold nb; lia). apply Nat.eqb_refl. }
      apply (find_none _ _ F) in I. cbn in I. rewrite Z.eqb_refl in I. discriminate.
  Qed.
  Lemma many_unique mix a : mixes mix -> distinct eq b -> exists res, member_num G B ord Z.eqb (fun x => Some x) mix a b = Ret res /\ member_spec eq (- 2 ^ (w - 1)) b a res.
  Proof.
    intros MIX U. destruct (many_ok mix a MIX) as (res & E & O). exists res. split; [assumption|]. clear E. induction O as [|x rr a0 rs H O IH]; constructor; [|assumption].
    destruct H as [(j & y & J1 & J2 & J3)|H]; [|now right]. left. exists j, y. split; [assumption|]. split; [assumption|]. split; [|assumption].
    intros j' y' J' J4 <-. assert (j' = j); [|lia]. apply (U j' j _ _ J4 J1). congruence.
  Qed.
End Many.
