(** Proofs about membership of strings, and about the order of the messages. *)
From Verif Require Import Base Mem MemLemmas Inter HashModel HashSpec MtgModel MtgSpec MtgProofs Mtg2Proofs Mtg3Proofs.
Local Open Scope Z_scope.

(** the text of an item *)
Fixpoint text (s : list Z) : list Z := match s with [] => [] | c :: r => if c =? 0 then [] else c :: text r end.
Lemma text_zeros k : text (repeat 0 k) = [].
Proof. destruct k; reflexivity. Qed.
Lemma text_app s k : text (s ++ repeat 0 k) = text s.
Proof. induction s as [|c s IH]; cbn; [apply text_zeros|]. destruct (c =? 0); [reflexivity|]. now rewrite IH. Qed.
Lemma text_padded s : (forall i, nth_error s i = Some 0 -> forall j c, (i <= j)%nat -> nth_error s j = Some c -> c = 0) ->
  s = text s ++ repeat 0 (length s - length (text s)).
Proof.
  induction s as [|c s IH]; intros H; [reflexivity|]. cbn [text]. destruct (Z.eqb_spec c 0) as [->|N].
  - cbn [app length]. rewrite Nat.sub_0_r. apply list_ext. intros i. rewrite nth_error_repeat'. destruct (Nat.ltb_spec i (S (length s))) as [L|L].
    + destruct (nth_error_lt (0 :: s) i L) as (x & X). rewrite X. f_equal. eapply (H 0%nat); [reflexivity| |exact X]. lia.
    + apply nth_error_ge. cbn. lia.
  - cbn [length Nat.sub app]. f_equal. apply IH. intros i E j d J F. apply (H (S i) E (S j) d); [lia|assumption].
Qed.
Lemma same_text_text s t : same_text s t -> text s = text t.
Proof. intros (k & [<- | <-]); [now rewrite text_app|now rewrite text_app]. Qed.
Lemma text_same_text w1 w2 l1 l2 s t : padded w1 l1 -> padded w2 l2 -> In s l1 -> In t l2 -> text s = text t -> same_text s t.
Proof.
  intros P1 P2 I1 I2 E. destruct (P1 s I1) as [_ Q1]. destruct (P2 t I2) as [_ Q2]. apply text_padded in Q1, Q2.
  set (i := (length s - length (text s))%nat) in *. set (j := (length t - length (text t))%nat) in *.
  destruct (Nat.le_gt_cases i j).
  - exists (j - i)%nat. left. rewrite Q1, Q2, E, <- app_assoc, <- repeat_app. do 2 f_equal. lia.
  - exists (i - j)%nat. right. rewrite Q1, Q2, E, <- app_assoc, <- repeat_app. do 2 f_equal. lia.
Qed.

Lemma cstring_ok mem : forall k i, 0 <= i -> i + Z.of_nat k <= Z.of_nat (length mem) -> cstring mem i k = Some (text (firstn k (skipn (Z.to_nat i) mem))).
Proof.
  induction k as [|k IH]; intros i I H; [reflexivity|]. cbn [cstring]. rewrite zrd_some by lia.
  destruct (nth_error_lt mem (Z.to_nat i) ltac:(lia)) as (c & C). rewrite C.
  assert (S : skipn (Z.to_nat i) mem = c :: skipn (S (Z.to_nat i)) mem).
  { clear -C. revert C. generalize (Z.to_nat i). intros m. revert mem. induction m as [|m IHm]; intros mem C; destruct mem as [|x mem]; try discriminate; [cbn in C; injection C as ->; reflexivity|]. cbn in C. cbn [skipn]. now rewrite (IHm mem C). }
  rewrite S. cbn [firstn text]. destruct (c =? 0); [reflexivity|]. rewrite IH by lia. replace (Z.to_nat (i + 1)) with (Datatypes.S (Z.to_nat i)) by lia. reflexivity.
Qed.

Lemma loads_app {K} (load : Z -> option (option (Z * K))) a b la lb : loads load a = Some la -> loads load b = Some lb -> loads load (a ++ b) = Some (la ++ lb).
Proof.
  revert la. induction a as [|i a IH]; intros la A Bb; cbn in *; [injection A as <-; exact Bb|].
  destruct (load i) as [[d|]|]; [| |discriminate]; destruct (loads load a) as [l|]; try discriminate; injection A as <-; rewrite (IH l eq_refl Bb); reflexivity.
Qed.
Lemma loads_skip {K} (load : Z -> option (option (Z * K))) a : (forall i, In i a -> load i = Some None) -> loads load a = Some [].
Proof. induction a as [|i a IH]; intros H; cbn; [reflexivity|]. rewrite H by now left. rewrite IH by (intros; apply H; now right). reflexivity. Qed.
Lemma enum_map_seq {A} (f : nat -> A) m : forall s, enum 1 (Z.of_nat s) (map f (seq s m)) = map (fun j => (Z.of_nat j, f j)) (seq s m).
Proof. induction m as [|m IH]; intros s; cbn; [reflexivity|]. f_equal. replace (Z.of_nat s + 1) with (Z.of_nat (S s)) by lia. apply IH. Qed.

Lemma seq_plus L m : forall a, map (fun k => (L + k)%nat) (seq a m) = seq (L + a) m.
Proof. induction m as [|m IHm]; intros a; [reflexivity|]. cbn. f_equal. rewrite IHm. f_equal. lia. Qed.
Section Load.
  Context (w : Z) (L : nat) (mem : list Z).
  Hypothesis W : 1 < w.
  Hypothesis L0 : (0 < L)%nat.
  Hypothesis LW : Z.of_nat L < 2 ^ (w - 1).
  Hypothesis FIT : Z.of_nat (length mem) < 2 ^ 63.
  Definition str_load (i : Z) : option (option (Z * list Z)) :=
    if u64 i mod Z.of_nat L =? 0 then (if wrap w (Z.of_nat L) =? 0 then None else option_map (fun t => Some (Z.quot i (wrap w (Z.of_nat L)), t)) (cstring mem i L)) else Some None.
  Lemma u64_small i : 0 <= i < 2 ^ 64 -> u64 i = i.
  Proof. intros H. unfold u64. now apply Z.mod_small. Qed.
  Lemma loads_item s : (s * L + L <= length mem)%nat -> loads str_load (map (fun k => Z.of_nat (s * L) + Z.of_nat k) (seq 0 L)) = Some [(Z.of_nat s, text (item L mem s))].
  Proof.
    intros H. destruct L as [|l] eqn:EL; [lia|]. rewrite <- EL in *. replace (seq 0 L) with (0%nat :: seq 1 l) by (rewrite EL; reflexivity). cbn [map].
    assert (SL : Z.of_nat (s * L) = Z.of_nat s * Z.of_nat L) by lia.
    assert (P64 : 2 ^ 63 < 2 ^ 64) by reflexivity.
    change (?x :: ?y) with ([x] ++ y). erewrite loads_app; [|cbn [loads]; unfold str_load at 1; rewrite u64_small by lia; rewrite Z.add_0_r, SL, Z.mod_mul by lia; cbn [Z.eqb]; rewrite wrap_small by lia;
      destruct (Z.eqb_spec (Z.of_nat L) 0); [lia|]; rewrite cstring_ok by lia; cbn [option_map]; rewrite Z.quot_mul by lia; reflexivity|apply loads_skip].
    - cbn [app]. do 4 f_equal. unfold item. do 2 f_equal. lia.
    - intros i I. apply in_map_iff in I as (k & <- & I). apply in_seq in I. unfold str_load. rewrite u64_small by lia. rewrite SL.
      rewrite Z.add_comm, Z.mod_add by lia. rewrite Z.mod_small by lia. destruct (Z.eqb_spec (Z.of_nat k) 0); [lia|reflexivity].
  Qed.
  Lemma loads_items m : forall s, ((s + m) * L <= length mem)%nat -> loads str_load (map (fun k => Z.of_nat (s * L) + Z.of_nat k) (seq 0 (m * L))) = Some (map (fun j => (Z.of_nat j, text (item L mem j))) (seq s m)).
  Proof.
    induction m as [|m IH]; intros s H; [reflexivity|]. cbn [Nat.mul seq map]. rewrite seq_app, map_app.
    change (?x :: ?y) with ([x] ++ y). apply loads_app; [apply loads_item; nia|].
    replace (seq (0 + L) (m * L)) with (map (fun k => L + k)%nat (seq 0 (m * L))).
    - rewrite map_map. rewrite (map_ext _ (fun k => Z.of_nat (S s * L) + Z.of_nat k)) by (intros k; lia). apply IH. nia.
    - rewrite seq_plus. f_equal. lia.
  Qed.
End Load.

Lemma list_eqb_eq s t : list_eqb s t = true <-> s = t.
Proof. unfold list_eqb. destruct (list_eq_dec Z.eq_dec s t); split; congruence. Qed.

(** membership of images *)
Lemma member_map {A} (f : A -> list Z) (R : A -> A -> Prop) bad b x r : (forall y, In y b -> (R x y <-> f x = f y)) ->
  member_row (fun s t => list_eqb s t = true) bad (map f b) (f x) r -> member_row R bad b x r.
Proof.
  intros H [(j & y & J1 & J2 & J3 & ->)|[N ->]].
  - rewrite nth_error_map in J1. destruct (nth_error b j) as [z|] eqn:E; [|discriminate]. cbn in J1. injection J1 as <-. left. exists j, z.
    split; [assumption|]. split; [apply H; [eapply nth_error_In; eauto|now apply list_eqb_eq]|]. split; [|reflexivity].
    intros j' y' J' E' C. apply (J3 j' (f y') J'); [rewrite nth_error_map, E'; reflexivity|]. apply list_eqb_eq. apply H; [eapply nth_error_In; eauto|assumption].
  - right. split; [|reflexivity]. intros y I C. apply (N (f y)); [now apply in_map|]. apply list_eqb_eq. now apply H.
Qed.
Lemma member_spec_map {A} (f : A -> list Z) (R : A -> A -> Prop) bad b a res : (forall x y, In x a -> In y b -> (R x y <-> f x = f y)) ->
  member_spec (fun s t => list_eqb s t = true) bad (map f b) (map f a) res -> member_spec R bad b a res.
Proof.
  intros H. revert res. induction a as [|x a IH]; intros res M; inversion M; subst; constructor.
  - eapply member_map; [|eassumption]. intros y0 I. apply H; [now left|assumption].
  - apply IH; [|assumption]. intros; apply H; [now right|assumption].
Qed.

Section Strings.
  Context (G : Z) (B : nat) (ord : sched) (hash : list Z -> Z) (mix : nat -> list (list (list (Z * list Z))) -> list (list (Z * list Z))).
  Hypothesis MIX : mixes mix.
  Hypothesis FAIR : fair ord.
  Lemma leq_sym x y : list_eqb x y = true -> list_eqb y x = true.
  Proof. rewrite !list_eqb_eq. congruence. Qed.
  Lemma leq_trans x y z : list_eqb x y = true -> list_eqb y z = true -> list_eqb x z = true.
  Proof. rewrite !list_eqb_eq. congruence. Qed.

  Lemma member_str_ok (n1 n2 L1 L2 : nat) a b : (0 < n2)%nat -> (0 < L1)%nat -> (0 < L2)%nat -> length a = (n1 * L1)%nat -> length b = (n2 * L2)%nat ->
    Z.of_nat (n2 * L2) <= G - 2 -> G <= 2 ^ 63 -> Z.of_nat (n2 * L2) < 2 ^ (index_bits (Z.of_nat n2) - 1) ->
    exists res, member_str G B ord hash mix (Z.of_nat n1) (Z.of_nat n2) (Z.of_nat L1) (Z.of_nat L2) a b = Ret res /\
      member_spec (fun s t => list_eqb s t = true) (- 2 ^ (index_bits (Z.of_nat n2) - 1)) (map text (item_list (Z.of_nat n2) (Z.of_nat L2) b)) (map text (item_list (Z.of_nat n1) (Z.of_nat L1) a)) res.
  Proof.
    intros N2 HL1 HL2 LA LB HG HG2 HW. set (n := Z.of_nat n2) in *. assert (NL : n <= Z.of_nat (n2 * L2)) by (unfold n; nia). assert (LL : Z.of_nat L2 <= Z.of_nat (n2 * L2)) by nia.
    destruct (index_bits_ok n ltac:(lia)) as [[W1 W2] WN]. set (w := index_bits n) in *.
    unfold member_str. fold n. fold w. assert (NB : num_slices G n = 1%nat) by (apply num_slices_one; unfold n in *; lia). rewrite NB. cbn [Nat.eqb map all_some].
    set (e := Z.of_nat (n2 * L2)) in *. assert (E0 : n * Z.of_nat L2 = e) by (unfold n, e; lia).
    assert (R : ranges w G (wrap w n) (Z.of_nat L2) (S (S (Z.to_nat (n * Z.of_nat L2)))) 0 = Some [(0, e)]).
    { rewrite wrap_small by lia. cbn [ranges rangify]. unfold rangify. rewrite E0.
      assert (X : n <= 0 + G / Z.of_nat L2 * Z.of_nat L2).
      { assert (n <= G / Z.of_nat L2) by (apply Z.div_le_lower_bound; lia). nia. }
      rewrite (proj2 (Z.leb_le _ _) X). rewrite wrap_small by lia. destruct (Z.ltb_spec (e - G + 1) 0); [|lia]. reflexivity. }
    set (its := map text (item_list n (Z.of_nat L2) b)).
    assert (ITS : its = map (fun j => text (item L2 b j)) (seq 0 n2)) by (unfold its, item_list; rewrite map_map; unfold n; now rewrite !Nat2Z.id).
    assert (LD : loads (str_load w L2 b) (positions w 0 e) = Some (enum 1 0 its)).
    { rewrite positions_small by lia. rewrite Z.sub_0_r. unfold e at 1. rewrite Nat2Z.id.
      pose proof (loads_items w L2 b W1 HL2 ltac:(lia) ltac:(lia) n2 0 ltac:(cbn; lia)) as H. cbn [Nat.mul] in H. change (Z.of_nat 0) with 0 in H. rewrite H.
      rewrite ITS. f_equal. symmetry. exact (enum_map_seq (fun j => text (item L2 b j)) n2 0). }
    assert (IB : forall d : Z * list Z, in_b (fun k => hash_bucket 1 (hash k)) 0 d = true) by (intros d; reflexivity).
    assert (ILEN : length its = n2) by (rewrite ITS, map_length; apply seq_length).
    destruct (splitter_ok (str_load w L2 b) (fun k => hash_bucket 1 (hash k)) B 1 w (0, e) (enum 1 0 its)) as (msgs & SP & SM).
    - intros C. injection C as C. lia.
    - exact LD.
    - apply Forall_forall. intros [i x] I. apply enum_in in I as (k & _ & ->). split; [cbn [fst]; lia|]. exists 0%nat. split; [reflexivity|lia].
    - intros c Hc. assert (c = 0%nat) by lia. subst c. rewrite filter_true by (intros; apply IB). destruct its; [cbn in ILEN; lia|discriminate].
    - destruct (is_member_calls list_eqb (fun nb k => hash_bucket nb (hash k)) w G B mix ord W1 leq_sym leq_trans MIX FAIR n (Z.of_nat L2) (str_load w L2 b) [msgs] [(0, e)] [enum 1 0 its]
                  (map (fun i => (text (item L1 a i), hash_bucket 1 (hash []))) (seq 0 n1)) (repeat (false, 0) n1) R) as (D & _ & _ & D1 & E).
      + rewrite NB. cbn [map all_some]. rewrite SP. reflexivity.
      + constructor; [|constructor]. rewrite NB. exact SM.
      + constructor; [|constructor]. apply Forall_forall. intros [i x] I. apply enum_in in I as (k & Ek & ->). apply nth_error_Some_lt in Ek. unfold small. cbn [fst]. rewrite ILEN in Ek. unfold n in *. lia.
      + now rewrite repeat_length, map_length, seq_length.
      + intros k c I. apply in_map_iff in I as (y & Y & _). injection Y as <- <-. exists 0%nat. rewrite NB. split; [reflexivity|lia].
      + eexists. split.
        * rewrite !Nat2Z.id. match goal with |- is_member_tg _ _ _ _ _ _ _ _ _ _ (map ?f ?l) _ = _ => replace (map f l) with (map Some (map (fun i => (text (item L1 a i), hash_bucket 1 (hash []))) (seq 0 n1))) end.
          { exact E. }
          rewrite map_map. apply map_ext_in. intros i I. apply in_seq in I. cbn [hash_bucket]. rewrite cstring_ok by nia. cbn [option_map]. do 3 f_equal. unfold item. do 2 f_equal. lia.
        * rewrite map_map. replace (map text (item_list (Z.of_nat n1) (Z.of_nat L1) a)) with (map (fun i => text (item L1 a i)) (seq 0 n1)) by (unfold item_list; rewrite map_map; now rewrite !Nat2Z.id).
          fold its. unfold member_spec. apply Forall2_map_both. intros i _. cbn [fst snd hash_bucket].
          rewrite (D1 _ eq_refl) by (rewrite NB; lia). rewrite NB. rewrite filter_true by (intros; apply IB). apply row_first. exact leq_sym.
  Qed.
End Strings.

Lemma padded_text L M s t : padded L [s] -> padded M [t] -> (same_text s t <-> text s = text t).
Proof.
  intros P Q. split; [apply same_text_text|]. intros E. eapply text_same_text; [exact P|exact Q|now left|now left|exact E].
Qed.
Lemma padded_eq L s t : padded L [s] -> padded L [t] -> (same_text s t <-> s = t).
Proof.
  intros P Q. destruct (P s) as [LS _]; [now left|]. destruct (Q t) as [LT _]; [now left|]. split.
  - intros (k & E). assert (k = 0)%nat by (destruct E as [E|E]; apply (f_equal (@length Z)) in E; rewrite app_length, repeat_length in E; lia). subst k. cbn in E. rewrite !app_nil_r in E. destruct E; congruence.
  - intros ->. exists 0%nat. left. apply app_nil_r.
Qed.
Lemma padded_in L l s : padded L l -> In s l -> padded L [s].
Proof. intros P I x [<-|[]]. now apply P. Qed.

Section Texts.
  Context (G : Z) (B : nat) (ord : sched) (hash : list Z -> Z) (mix : nat -> list (list (list (Z * list Z))) -> list (list (Z * list Z))).
  Hypothesis MIX : mixes mix.
  Hypothesis FAIR : fair ord.
  Lemma item_list_len n L mem : length (item_list (Z.of_nat n) L mem) = n.
  Proof. unfold item_list. now rewrite map_length, seq_length, Nat2Z.id. Qed.
  (** strings taken for integers *)
  Lemma strings_alias csz (n1 n2 c : nat) a b : let L := csz * Z.of_nat c in L = 1 \/ L = 2 \/ L = 4 \/ L = 8 ->
    (0 < n2)%nat -> Z.of_nat n2 <= G - 2 -> G <= 2 ^ 63 -> padded c (item_list (Z.of_nat n1) (Z.of_nat c) a) -> padded c (item_list (Z.of_nat n2) (Z.of_nat c) b) ->
    exists res, IsMember_strings G B ord csz hash mix (Z.of_nat n1) (Z.of_nat n2) (Z.of_nat c) (Z.of_nat c) a b = Ret res /\
      member_spec same_text (- 2 ^ (index_bits (Z.of_nat n2) - 1)) (item_list (Z.of_nat n2) (Z.of_nat c) b) (item_list (Z.of_nat n1) (Z.of_nat c) a) res.
  Proof.
    intros L HL N2 HG HG2 PA PB. unfold IsMember_strings. fold L. rewrite Z.eqb_refl.
    replace ((L =? 1) || (L =? 2) || (L =? 4) || (L =? 8)) with true by (destruct HL as [-> | [-> | [-> | ->]]]; reflexivity). cbn [andb].
    destruct (member_num_ok list_eqb (fun s => Some (le_int csz s)) G B ord mix leq_sym leq_trans MIX FAIR (item_list (Z.of_nat n1) (Z.of_nat c) a) (item_list (Z.of_nat n2) (Z.of_nat c) b)) as (res & E & S).
    - rewrite item_list_len. lia.
    - exact HG2.
    - exists res. split; [exact E|]. rewrite item_list_len in S. apply (member_spec_map (fun s => s)); [|rewrite !map_id; exact S].
      intros x y X Y. apply (padded_eq c); [exact (padded_in _ _ _ PA X)|exact (padded_in _ _ _ PB Y)].
  Qed.
  Lemma strings_ok (n1 n2 c1 c2 : nat) a b : (0 < n2)%nat -> (0 < c1)%nat -> (0 < c2)%nat -> length a = (n1 * c1)%nat -> length b = (n2 * c2)%nat ->
    padded c1 (item_list (Z.of_nat n1) (Z.of_nat c1) a) -> padded c2 (item_list (Z.of_nat n2) (Z.of_nat c2) b) ->
    Z.of_nat (n2 * c2) <= G - 2 -> G <= 2 ^ 63 -> Z.of_nat (n2 * c2) < 2 ^ (index_bits (Z.of_nat n2) - 1) ->
    exists res, IsMember_strings G B ord 1 hash mix (Z.of_nat n1) (Z.of_nat n2) (Z.of_nat c1) (Z.of_nat c2) a b = Ret res /\
      member_spec same_text (- 2 ^ (index_bits (Z.of_nat n2) - 1)) (item_list (Z.of_nat n2) (Z.of_nat c2) b) (item_list (Z.of_nat n1) (Z.of_nat c1) a) res.
  Proof.
    intros N2 C1 C2 LA LB PA PB HG HG2 HW.
    destruct ((1 * Z.of_nat c1 =? 1 * Z.of_nat c2) && ((1 * Z.of_nat c1 =? 1) || (1 * Z.of_nat c1 =? 2) || (1 * Z.of_nat c1 =? 4) || (1 * Z.of_nat c1 =? 8))) eqn:A.
    - apply andb_prop in A as [A1 A2]. assert (c1 = c2) by lia. subst c2. apply strings_alias; try assumption; [|nia].
      rewrite !orb_true_iff, !Z.eqb_eq in A2. tauto.
    - unfold IsMember_strings. rewrite A. rewrite !Z.mul_1_l. destruct (member_str_ok G B ord hash mix MIX FAIR n1 n2 c1 c2 a b) as (res & E & S); try assumption.
      exists res. split; [exact E|]. eapply member_spec_map; [|exact S]. intros x y X Y. exact (padded_text _ _ _ _ (padded_in _ _ _ PA X) (padded_in _ _ _ PB Y)).
  Qed.
End Texts.

(** two orders of the messages *)
Lemma interleave_swap {A} (p q : list A) : interleave [p; q] (q ++ p).
Proof.
  induction q as [|x q IH].
  - cbn [app]. induction p as [|y p IHp]; [apply il_nil; intros ? [<-|[<-|[]]]; reflexivity|]. apply (il_step _ 0 y p); [reflexivity|exact IHp].
  - cbn [app]. apply (il_step _ 1 x q); [reflexivity|exact IH].
Qed.
Definition calls_in_order {K} (_ : nat) (ps : list (list (list (Z * K)))) : list (list (Z * K)) := concat ps.
Definition last_call_first {K} (_ : nat) (ps : list (list (list (Z * K)))) : list (list (Z * K)) := match ps with [p; q] => q ++ p | _ => concat ps end.
Lemma calls_in_order_mixes {K} : mixes (@calls_in_order K).
Proof. intros b ps. apply interleave_concat. Qed.
Lemma last_call_first_mixes {K} : mixes (@last_call_first K).
Proof. intros b ps. destruct ps as [|p [|q [|]]]; try apply interleave_concat. apply interleave_swap. Qed.

Section Order.
  Context (g : nat) (B : nat) (ord : sched).
  Let G := Z.of_nat g.
  Hypothesis FAIR : fair ord.
  Hypothesis HG : 4 <= G < 2 ^ 61.
  Definition twice : list Z := map (fun i => Z.of_nat i mod G) (seq 0 (g + (g - 2))).
  Lemma twice_len : Z.of_nat (length twice) = G * 1 + (G - 2).
  Proof. unfold twice. rewrite map_length, seq_length. unfold G in *. lia. Qed.
  Lemma twice_nth k : (k < g + (g - 2))%nat -> nth_error twice k = Some (Z.of_nat k mod G).
  Proof. intros H. unfold twice. rewrite nth_error_map. rewrite nth_error_seq. rewrite (proj2 (Nat.ltb_lt _ _) H). reflexivity. Qed.
  Lemma twice_all i c : (i < 2)%nat -> (c < 2)%nat -> has_class G twice 2 i c.
  Proof.
    intros Hi Hc. exists (g * i + c)%nat, (Z.of_nat c). split; [unfold G in *; nia|]. split.
    - rewrite twice_nth by (unfold G in *; nia). f_equal. replace (Z.of_nat (g * i + c)) with (Z.of_nat c + Z.of_nat i * G) by (unfold G; lia). rewrite Z.mod_add by lia. apply Z.mod_small. lia.
    - destruct c as [|[|]]; [reflexivity|reflexivity|lia].
  Qed.
  Lemma twice_portion i : (i < 2)%nat -> exists t, filter (in_b (fun k => mod_bucket 2 (Some k)) 0) (portion G twice i) = (G * Z.of_nat i, 0) :: t.
  Proof.
    intros Hi. unfold portion. set (s := G * Z.of_nat i). set (e := Z.min _ _). assert (X : nth_error (part twice s e) 0 = Some 0).
    { rewrite part_nth by (unfold s; lia). destruct (Z.ltb_spec (Z.of_nat 0) (e - s)) as [|C]; [|exfalso; unfold e, s in C; rewrite twice_len in C; cbn in C; nia].
      rewrite twice_nth by (unfold s, G in *; nia). f_equal. unfold s. rewrite Nat.add_0_r. rewrite Z2Nat.id by lia. rewrite Z.mul_comm. apply Z.mod_mul. lia. }
    destruct (part twice s e) as [|x t]; [discriminate|]. cbn in X. injection X as ->. cbn [enum filter]. change (in_b _ 0 (s, 0)) with true. cbn iota. eauto.
  Qed.
  Lemma order_matters :
    member_num G B ord Z.eqb (fun x => Some x) calls_in_order [0] twice = Ret [(true, 0)] /\ member_num G B ord Z.eqb (fun x => Some x) last_call_first [0] twice = Ret [(true, G)].
  Proof.
    assert (ROWS := many_rows G B ord twice 1 (G - 2) FAIR twice_len ltac:(lia) ltac:(lia) ltac:(rewrite twice_len; lia) twice_all).
    split.
    - destruct (ROWS calls_in_order [0] calls_in_order_mixes) as (calls & D & F & D0 & _ & E).
      rewrite E. cbn [map]. change (Z.to_nat (u64 0 mod Z.of_nat (S (Z.to_nat 1)))) with 0%nat. rewrite D0.
      change (map (portion G twice) (seq 0 (S (Z.to_nat 1)))) with [portion G twice 0; portion G twice 1] in F. inversion F as [|m0 ? ms ? F0 F1]; subst. inversion F1 as [|m1 ? ms2 ? F2 F3]; subst. inversion F3; subst.
      destruct (twice_portion 0 ltac:(lia)) as (t0 & T0). unfold calls_in_order. cbn [map concat]. rewrite app_nil_r, concat_app. rewrite F0 by (cbn; lia).
      replace (filter _ (portion G twice 0)) with ((G * Z.of_nat 0, 0) :: t0) by (symmetry; exact T0). cbn [app find snd Z.eqb row_of fst]. do 3 f_equal. lia.
    - destruct (ROWS last_call_first [0] last_call_first_mixes) as (calls & D & F & D0 & _ & E).
      rewrite E. cbn [map]. change (Z.to_nat (u64 0 mod Z.of_nat (S (Z.to_nat 1)))) with 0%nat. rewrite D0.
      change (map (portion G twice) (seq 0 (S (Z.to_nat 1)))) with [portion G twice 0; portion G twice 1] in F. inversion F as [|m0 ? ms ? F0 F1]; subst. inversion F1 as [|m1 ? ms2 ? F2 F3]; subst. inversion F3; subst.
      destruct (twice_portion 1 ltac:(lia)) as (t0 & T0). unfold last_call_first. cbn [map]. rewrite concat_app. rewrite F2 by (cbn; lia).
      replace (filter _ (portion G twice 1)) with ((G * Z.of_nat 1, 0) :: t0) by (symmetry; exact T0). cbn [app find snd Z.eqb row_of fst]. do 3 f_equal. lia.
  Qed.
End Order.

Lemma feq_trans w e x y z : feq_bits w e x y = true -> feq_bits w e y z = true -> feq_bits w e x z = true.
Proof.
  unfold feq_bits. rewrite !andb_true_iff, !orb_true_iff, !andb_true_iff. intros [[A B] C] [[D E] F]. split; [tauto|].
  destruct C as [C|[C C']]; [apply Z.eqb_eq in C; subst; exact F|]. destruct F as [F|[F F']]; [apply Z.eqb_eq in F; subst; tauto|tauto].
Qed.

Section Refutations.
  Context (ord : sched).
  Hypothesis FAIR : fair ord.
  Lemma none_in_empty {K} (keq : K -> K -> bool) size_t G B mix x : 1 < G -> member_num G B ord keq size_t mix [x] [] = UB.
  Proof.
    intros HG. unfold member_num, is_member_tg. cbn [length Z.of_nat]. assert (NS : num_slices G 0 = 0%nat) by (unfold num_slices; rewrite Z.div_small by lia; reflexivity). rewrite NS.
    change (index_bits 0) with 8. change (wrap 8 0) with 0. change (Z.to_nat (0 * 1)) with 0%nat. cbn [ranges]. unfold rangify. rewrite Z.div_1_r, Z.mul_1_r, Z.add_0_l.
    destruct (Z.leb_spec 0 G); [|lia]. change (wrap 8 (0 * 1)) with 0. destruct (Z.ltb_spec (0 - G + 1) 0); [|lia]. cbn. reflexivity.
  Qed.
  Lemma all_same_big mix a : exists b, member_num grainsize num_per_bucket ord Z.eqb (fun x => Some x) mix a b = UB /\ Z.of_nat (length b) = grainsize + 1 /\ (forall x, In x b -> x = 0).
  Proof.
    exists (repeat 0 (Z.to_nat (grainsize + 1))). assert (LN : Z.of_nat (length (repeat 0 (Z.to_nat (grainsize + 1)))) = grainsize + 1) by (rewrite repeat_length, Z2Nat.id; [reflexivity|unfold grainsize; lia]).
    assert (AL : forall x, In x (repeat 0 (Z.to_nat (grainsize + 1))) -> x = 0) by (intros x I; apply repeat_spec in I; assumption).
    split; [|split; assumption]. revert LN AL. generalize (repeat 0 (Z.to_nat (grainsize + 1))). intros b LN AL.
    apply (many_missing grainsize num_per_bucket ord b 1 1) with (i := 0%nat) (c := 1%nat); try (unfold grainsize in *; lia).
    intros (i & x & _ & E & M). apply nth_error_In in E. apply AL in E. subst x. discriminate.
  Qed.
End Refutations.
