(** Proofs about membership of numbers. *)
From Verif Require Import Base Mem MemLemmas Inter HashModel HashSpec MtgModel MtgSpec MtgProofs.
Local Open Scope Z_scope.

Lemma index_bits_ok size : 0 <= size < 2 ^ 63 -> 1 < index_bits size <= 64 /\ size < 2 ^ (index_bits size - 1).
Proof.
  intros H. unfold index_bits. destruct (Z.ltb_spec size 100); [cbn; lia|]. destruct (Z.ltb_spec size 30000); [cbn; lia|]. destruct (Z.ltb_spec size 2000000000); [cbn; lia|].
  change (64 - 1) with 63. lia.
Qed.

Section Ranges.
  Context (w G n : Z).
  Hypothesis W : 1 < w.
  Hypothesis HG : 2 <= G.
  Hypothesis HN : 0 < n < 2 ^ (w - 1).
  Lemma rangify_num s : 0 <= s -> rangify w G n 1 s = (s, if n <=? s + G then n else s + G).
  Proof.
    intros Hs. unfold rangify. rewrite Z.div_1_r, !Z.mul_1_r. f_equal. destruct (Z.leb_spec n (s + G)).
    - apply wrap_small; lia.
    - apply wrap_small; lia.
  Qed.
  Lemma ranges_num q r : n = G * q + r -> 1 <= r <= G - 2 -> 0 <= q ->
    forall m fuel j, Z.of_nat m = q - j -> 0 <= j -> (m < fuel)%nat ->
    ranges w G n 1 fuel (G * j) = Some (map (fun i => (G * (j + Z.of_nat i), Z.min (G * (j + Z.of_nat i + 1)) n)) (seq 0 (S m))).
  Proof.
    intros N R Q. induction m as [|m IH]; intros fuel j M J F; (destruct fuel as [|fuel]; [lia|]); cbn [ranges].
    - assert (j = q) by lia. subst j. rewrite rangify_num by nia. destruct (Z.leb_spec n (G * q + G)); [|lia].
      destruct (Z.ltb_spec (n - G + 1) (G * q)); [|lia]. cbn [Z.eqb]. cbn [seq map]. rewrite Z.add_0_r. rewrite Z.min_r by lia. reflexivity.
    - rewrite rangify_num by nia. destruct (Z.leb_spec n (G * j + G)); [nia|].
      destruct (Z.ltb_spec (G * j + G - G + 1) (G * j)); [lia|]. destruct (Z.eqb_spec (G * j + G) 0); [nia|].
      replace (G * j + G) with (G * (j + 1)) by ring. rewrite (IH fuel (j + 1)) by lia. cbn [option_map]. f_equal.
      change (seq 0 (S (S m))) with (0%nat :: seq 1 (S m)). cbn [map]. f_equal.
      + rewrite Z.add_0_r, Z.min_l by lia. reflexivity.
      + rewrite <- seq_shift, map_map. apply map_ext. intros i. rewrite Nat2Z.inj_succ. f_equal; f_equal; lia.
  Qed.
  Lemma ranges_full fuel : n = G - 1 \/ n = G -> ranges w G n 1 (S (S fuel)) 0 = Some [(0, n); (n, n)].
  Proof.
    intros N. cbn [ranges]. rewrite rangify_num by lia. rewrite (proj2 (Z.leb_le n (0 + G))) by lia.
    rewrite (proj2 (Z.ltb_ge (n - G + 1) 0)) by lia. destruct (Z.eqb_spec n 0); [lia|]. rewrite rangify_num by lia. rewrite (proj2 (Z.leb_le n (n + G))) by lia.
    destruct (Z.ltb_spec (n - G + 1) n); [reflexivity|lia].
  Qed.
  Lemma positions_small s e : 0 <= s -> s <= e -> e < 2 ^ (w - 1) -> positions w s e = map (fun k => s + Z.of_nat k) (seq 0 (Z.to_nat (e - s))).
  Proof.
    intros Hs Hn He. unfold positions. assert (P : 2 ^ w = 2 * 2 ^ (w - 1)) by (rewrite <- Z.pow_succ_r by lia; f_equal; lia).
    rewrite Z.mod_small by lia. apply map_ext_in. intros k I. apply in_seq in I. apply wrap_small; lia.
  Qed.
End Ranges.

Section Num.
  Context {K : Type} (b : list K).
  Definition num_load (i : Z) : option (option (Z * K)) := option_map (fun k => Some (i, k)) (zrd b i).
  Lemma loads_num l : forall s, (forall k x, nth_error l k = Some x -> zrd b (s + Z.of_nat k) = Some x) ->
    loads num_load (map (fun k => s + Z.of_nat k) (seq 0 (length l))) = Some (enum 1 s l).
  Proof.
    induction l as [|x l IH]; intros s H; [reflexivity|]. cbn [length seq map loads].
    unfold num_load at 1. rewrite (H 0%nat x eq_refl). cbn [option_map]. rewrite Z.add_0_r.
    rewrite <- seq_shift, map_map. rewrite (map_ext (fun k => s + Z.of_nat (S k)) (fun k => (s + 1) + Z.of_nat k)) by (intros; lia).
    rewrite IH; [reflexivity|]. intros k y E. rewrite <- (H (S k) y E). f_equal. lia.
  Qed.
  (** the part of [b] from [s] to [e] *)
  Definition part (s e : Z) : list K := firstn (Z.to_nat (e - s)) (skipn (Z.to_nat s) b).
  Lemma part_nth s e k : 0 <= s -> nth_error (part s e) k = if Z.of_nat k <? e - s then nth_error b (Z.to_nat s + k) else None.
  Proof.
    intros Hs. unfold part. destruct (Z.ltb_spec (Z.of_nat k) (e - s)).
    - rewrite nth_error_firstn. destruct (Nat.ltb_spec k (Z.to_nat (e - s))); [|lia]. apply nth_error_skipn.
    - apply nth_error_None. rewrite firstn_length. lia.
  Qed.
  Lemma part_length s e : 0 <= s -> s <= e -> e <= Z.of_nat (length b) -> length (part s e) = Z.to_nat (e - s).
  Proof. intros. unfold part. rewrite firstn_length, skipn_length. lia. Qed.
  Lemma loads_part w s e : 1 < w -> 0 <= s -> s <= e -> e <= Z.of_nat (length b) -> e < 2 ^ (w - 1) ->
    loads num_load (positions w s e) = Some (enum 1 s (part s e)).
  Proof.
    intros W Hs He Hn Hw. rewrite positions_small by assumption. rewrite <- (part_length s e) by assumption. apply loads_num.
    intros k x E. rewrite part_nth in E by assumption. destruct (Z.ltb_spec (Z.of_nat k) (e - s)); [|discriminate].
    rewrite zrd_some by lia. rewrite <- E. f_equal. lia.
  Qed.
End Num.

Section Find.
  Context {K : Type} (keq : K -> K -> bool).
  Hypothesis sym : forall x y, keq x y = true -> keq y x = true.
  Lemma find_enum b x : forall s, match find (fun d => keq (snd d) x) (enum 1 s b) with
    | Some d => exists j, fst d = s + Z.of_nat j /\ nth_error b j = Some (snd d) /\ keq x (snd d) = true /\ forall j' y', (j' < j)%nat -> nth_error b j' = Some y' -> keq x y' <> true
    | None => forall y, In y b -> keq x y <> true end.
  Proof.
    induction b as [|y b IH]; intros s; cbn [enum find]; [intros ? []|]. cbn [snd]. destruct (keq y x) eqn:E.
    - exists 0%nat. cbn. split; [lia|]. split; [reflexivity|]. split; [now apply sym|]. intros; lia.
    - specialize (IH (s + 1)). destruct (find _ _) as [d|].
      + destruct IH as (j & J1 & J2 & J3 & J4). exists (S j). split; [lia|]. split; [assumption|]. split; [assumption|].
        intros [|j'] y' J' N; [cbn in N; injection N as <-; intros C; apply sym in C; congruence|]. apply (J4 j' y'); [lia|assumption].
      + intros z [<-|I]; [intros C; apply sym in C; congruence|now apply IH].
  Qed.
  Lemma row_first w b x : member_row (fun x y => keq x y = true) (- 2 ^ (w - 1)) b x (row_of w (find (fun d => keq (snd d) x) (enum 1 0 b))).
  Proof.
    pose proof (find_enum b x 0) as F. destruct (find _ _) as [d|]; cbn [row_of].
    - destruct F as (j & J1 & J2 & J3 & J4). left. exists j, (snd d). split; [assumption|]. split; [assumption|]. split; [exact J4|]. f_equal. lia.
    - right. split; [exact F|reflexivity].
  Qed.
End Find.

Lemma filter_true {A} (f : A -> bool) l : (forall x, In x l -> f x = true) -> filter f l = l.
Proof. induction l as [|x l IH]; intros H; [reflexivity|]. cbn. rewrite H by now left. f_equal. apply IH. intros; apply H; now right. Qed.
Lemma filter_none {A} (f : A -> bool) l : (forall x, In x l -> f x = false) -> filter f l = [].
Proof. induction l as [|x l IH]; intros H; [reflexivity|]. cbn. rewrite H by now left. apply IH. intros; apply H; now right. Qed.
Lemma Forall2_map_r {A B} (R : A -> B -> Prop) f l : (forall x, In x l -> R x (f x)) -> Forall2 R l (map f l).
Proof. induction l as [|x l IH]; intros H; cbn; constructor; [apply H; now left|apply IH; intros; apply H; now right]. Qed.
Lemma num_slices_one G size : 0 < size <= G -> num_slices G size = 1%nat.
Proof. intros H. unfold num_slices. replace ((size + G - 1) / G) with 1; [reflexivity|]. apply Z.div_unique with (size - 1); lia. Qed.

Section One.
  Context {K : Type} (keq : K -> K -> bool) (size_t : K -> option Z) (G : Z) (B : nat) (ord : sched) (mix : nat -> list (list (list (Z * K))) -> list (list (Z * K))).
  Hypothesis sym : forall x y, keq x y = true -> keq y x = true.
  Hypothesis trans : forall x y z, keq x y = true -> keq y z = true -> keq x z = true.
  Hypothesis MIX : mixes mix.
  Hypothesis FAIR : fair ord.

  (** one slice *)
  Lemma member_num_ok a b : 1 <= Z.of_nat (length b) <= G - 2 -> G <= 2 ^ 63 ->
    exists res, member_num G B ord keq size_t mix a b = Ret res /\
      member_spec (fun x y => keq x y = true) (- 2 ^ (index_bits (Z.of_nat (length b)) - 1)) b a res.
  Proof.
    intros N HG. set (n := Z.of_nat (length b)) in *. destruct (index_bits_ok n ltac:(lia)) as [[W1 W2] WN]. set (w := index_bits n) in *.
    unfold member_num. fold n. fold w. assert (NB : num_slices G n = 1%nat) by (apply num_slices_one; lia). rewrite NB.
    assert (R : ranges w G (wrap w n) 1 (S (S (Z.to_nat (n * 1)))) 0 = Some [(0, n)]).
    { rewrite wrap_small by lia. pose proof (ranges_num w G n W1 ltac:(lia) ltac:(lia) 0 n ltac:(lia) ltac:(lia) ltac:(lia) 0 (S (S (Z.to_nat (n * 1)))) 0 eq_refl ltac:(lia) ltac:(lia)) as H.
      rewrite Z.mul_0_r in H. rewrite H. cbn [seq map]. do 3 f_equal; lia. }
    assert (LD : loads (num_load b) (positions w 0 n) = Some (enum 1 0 b)).
    { rewrite (loads_part b w 0 n) by (unfold n in *; lia). do 2 f_equal. unfold part. rewrite Z.sub_0_r. unfold n. rewrite Nat2Z.id. cbn [Z.to_nat skipn]. apply firstn_all. }
    assert (IB : forall d : Z * K, in_b (fun k => mod_bucket 1 (size_t k)) 0 d = true) by (intros d; reflexivity).
    destruct (splitter_ok (num_load b) (fun k => mod_bucket 1 (size_t k)) B 1 w (0, n) (enum 1 0 b)) as (msgs & SP & SM).
    - intros C. injection C as C. lia.
    - exact LD.
    - apply Forall_forall. intros [i x] I. apply enum_in in I as (k & _ & ->). split; [cbn [fst]; lia|]. exists 0%nat. split; [reflexivity|lia].
    - intros c Hc. assert (c = 0%nat) by lia. subst c. rewrite filter_true by (intros; apply IB). destruct b; [cbn in n; lia|discriminate].
    - destruct (is_member_calls keq (fun nb k => mod_bucket nb (size_t k)) w G B mix ord W1 sym trans MIX FAIR n 1 (num_load b) [msgs] [(0, n)] [enum 1 0 b]
                  (map (fun k => (k, mod_bucket 1 (size_t k))) a) (repeat (false, 0) (length a)) R) as (D & _ & _ & D1 & E).
      + rewrite NB. cbn [map all_some]. rewrite SP. reflexivity.
      + constructor; [|constructor]. rewrite NB. exact SM.
      + constructor; [|constructor]. apply Forall_forall. intros [i x] I. apply enum_in in I as (k & Ek & ->). apply nth_error_Some_lt in Ek. unfold small. cbn [fst]. unfold n in *. lia.
      + now rewrite repeat_length, map_length.
      + intros k c I. apply in_map_iff in I as (y & Y & _). injection Y as <- <-. exists 0%nat. rewrite NB. split; [reflexivity|lia].
      + rewrite map_map in E. eexists. split; [exact E|]. rewrite map_map. apply Forall2_map_r. intros x _. cbn [fst snd mod_bucket].
        rewrite (D1 _ eq_refl) by (rewrite NB; lia). rewrite NB. rewrite filter_true by (intros; apply IB). now apply row_first.
  Qed.
  (** a haystack of a length that fills the last range: a range without items *)
  Lemma member_num_full a b : Z.of_nat (length b) = G - 1 \/ Z.of_nat (length b) = G -> 3 <= G <= 2 ^ 62 -> member_num G B ord keq size_t mix a b = UB.
  Proof.
    intros N HG. set (n := Z.of_nat (length b)) in *. destruct (index_bits_ok n ltac:(lia)) as [[W1 W2] WN]. set (w := index_bits n) in *.
    unfold member_num, is_member_tg. fold n. fold w. rewrite wrap_small by lia. rewrite ranges_full by lia.
    rewrite (all_some_none _ [(0, n); (n, n)] (n, n)); [reflexivity|right; now left|].
    apply splitter_missing with (l := []) (b := 0%nat).
    - intros C. injection C as C _. lia.
    - cbn [fst snd]. unfold positions. now rewrite Z.sub_diag.
    - constructor.
    - unfold num_slices. assert (1 <= (n + G - 1) / G) by (apply Z.div_le_lower_bound; lia). lia.
    - reflexivity.
  Qed.
End One.
