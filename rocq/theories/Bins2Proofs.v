From Verif Require Import Base MemLemmas Par Num BinsModel BinsSpec BinsProofs.
Local Open Scope Z_scope.

(** ** Whole arrays *)
Lemma search_sorted castT castB right ord thr c vals edges d :
  fair ord -> (0 < c)%nat -> edges_ok (Z.of_nat (length edges)) -> ascending edges -> casts_agree castT castB edges ->
  SearchSorted castT castB right ord thr c vals edges d =
    Some (map (fun v => (if right then count_le else count_lt) edges (conv castB v)) vals).
Proof.
  intros Ho Hc Hok Ha Hcast. unfold SearchSorted. apply par_map_list; auto; [exact NaN|].
  intros v _. destruct right; [apply search_right_spec | apply search_left_spec]; auto.
Qed.

Lemma par_map_exists {A B} ord thr c (l : list A) (f : A -> option B) d : fair ord -> (0 < c)%nat ->
  (forall x, In x l -> exists y, f x = Some y) ->
  exists r, par_map ord thr c (length l) (fun i => match nth_error l i with Some x => f x | None => None end) d = Some r /\
    length r = length l /\ forall i x, nth_error l i = Some x -> nth_error r i = f x.
Proof.
  intros Ho Hc H. pose (g := fun x => match f x with Some y => y | None => d end).
  destruct l as [|x0 l0] eqn:El.
  - exists []. split; [|split; auto].
    + rewrite (par_map_some ord thr c _ _ (fun _ => d)); auto. simpl. intros i Hi. lia.
    + intros [|i] x Hx; discriminate.
  - rewrite <- El in *. exists (map g l). split; [|split; [apply map_length|]].
    + apply par_map_list; auto. intros x Hx. destruct (H x Hx) as [y E]. unfold g. now rewrite E.
    + intros i x Hx. rewrite nth_error_map, Hx. simpl. destruct (H x) as [y E]; [eapply nth_error_In; eauto|].
      unfold g. now rewrite E.
Qed.

Lemma cut_bsearch castT castB ok ord thr c vals edges d :
  fair ord -> (0 < c)%nat -> edges_ok (Z.of_nat (length edges)) -> strictly_ascending edges -> casts_agree castT castB edges ->
  ok NaN = false ->
  exists r, CutBSearch castT castB ok ord thr c vals edges d = Some r /\ length r = length vals /\
    forall i v, nth_error vals i = Some v -> exists x, nth_error r i = Some x /\ 0 <= x /\
      forall b, 1 <= b -> (x = b <-> ok v = true /\ in_bin edges (conv castB v) b).
Proof.
  intros Ho Hc Hok Ha Hcast Hnan. unfold CutBSearch.
  assert (S : forall v, exists r, cut_one castT castB ok edges v = Some r /\ 0 <= r /\
      forall b, 1 <= b -> (r = b <-> ok v = true /\ in_bin edges (conv castB v) b)).
  { intros v. apply cut_one_spec; auto. intros Hv. destruct v; auto; congruence. }
  destruct (par_map_exists ord thr c vals (cut_one castT castB ok edges) d Ho Hc) as (r & E & L & H).
  { intros v _. destruct (S v) as (x & Ex & _). eauto. }
  exists r. split; auto. split; auto. intros i v Hv. rewrite (H i v Hv).
  destruct (S v) as (x & Ex & H1 & H2). exists x. auto.
Qed.

(** ** Strings *)
Lemma lex_refl a : lex a a = Eq.
Proof. induction a; simpl; auto. now rewrite Z.compare_refl. Qed.
Lemma lex_antisym a b : lex b a = CompOpp (lex a b).
Proof. revert b; induction a as [|x a IH]; intros [|y b]; simpl; auto. rewrite (Z.compare_antisym x y). destruct (x ?= y); simpl; auto. Qed.
Lemma lex_eq a b : lex a b = Eq -> a = b.
Proof. revert b; induction a as [|x a IH]; intros [|y b]; simpl; try discriminate; auto.
  destruct (Z.compare_spec x y); try discriminate. intros E. f_equal; auto. Qed.
Lemma lex_lt_trans a b c : lex a b = Lt -> lex b c = Lt -> lex a c = Lt.
Proof.
  revert b c; induction a as [|x a IH]; intros [|y b] [|z c]; simpl; try discriminate; auto.
  destruct (Z.compare_spec x y); try discriminate; destruct (Z.compare_spec y z); try discriminate; intros H1 H2.
  - destruct (Z.compare_spec x z); try lia. eauto.
  - destruct (Z.compare_spec x z); try lia; auto.
  - destruct (Z.compare_spec x z); try lia; auto.
  - destruct (Z.compare_spec x z); try lia; auto.
Qed.

Definition zeros (s : list Z) := forall x, In x s -> x = 0.
Lemma zp_cons x s : zero_padded (x :: s) -> if x =? 0 then zeros s else zero_padded s.
Proof.
  intros (t & k & E & N). destruct t as [|y t].
  - destruct k; simpl in E; [discriminate|]. inversion E; subst. simpl. intros x Hx. eapply repeat_spec; eauto.
  - simpl in E. inversion E; subst. destruct (Z.eqb_spec y 0); [exfalso; apply N; now left|].
    exists t, k. split; auto. intros H; apply N; now right.
Qed.
Lemma zeros_diff a b : zeros a -> zeros b -> first_diff a b = None.
Proof.
  revert b; induction a as [|x a IH]; intros [|y b] Ha Hb; simpl; auto.
  rewrite (Ha x), (Hb y) by (now left). simpl. apply IH; intros z Hz; [apply Ha|apply Hb]; now right.
Qed.
Lemma zeros_nth a n : zeros a -> nth n a 0 = 0.
Proof. intros Ha. destruct (Nat.lt_ge_cases n (length a)); [apply Ha, nth_In; auto|apply nth_overflow; auto]. Qed.

Lemma first_diff_spec s1 : forall s2, zero_padded s1 -> zero_padded s2 -> (forall x, In x s1 -> 0 <= x) -> (forall x, In x s2 -> 0 <= x) ->
  match first_diff s1 s2 with
  | Some (x, y) => x <> y /\ lex (text s1) (text s2) = (x ?= y)
  | None => lex (text s1) (text s2) =
      (if (length s1 =? length s2)%nat then Eq
       else if (length s1 <? length s2)%nat then if nth (length s1) s2 0 =? 0 then Eq else Lt
       else if nth (length s2) s1 0 =? 0 then Eq else Gt)
  end.
Proof.
  induction s1 as [|x s1 IH]; intros [|y s2] Z1 Z2 N1 N2; cbn [first_diff text].
  - reflexivity.
  - simpl. destruct (y =? 0); auto.
  - simpl. destruct (x =? 0); auto.
  - assert (0 <= x) by (apply N1; now left). assert (0 <= y) by (apply N2; now left).
    apply zp_cons in Z1. apply zp_cons in Z2.
    destruct (Z.eqb_spec x y) as [<-|Hne].
    + destruct (Z.eqb_spec x 0) as [->|Hx].
      * rewrite zeros_diff by auto. cbn [length nth]. cbn [lex].
        change (S (length s1) =? S (length s2))%nat with (length s1 =? length s2)%nat.
        change (S (length s1) <? S (length s2))%nat with (length s1 <? length s2)%nat.
        rewrite (zeros_nth s2), (zeros_nth s1) by auto. simpl. now destruct (length s1 =? length s2)%nat, (length s1 <? length s2)%nat.
      * specialize (IH s2 Z1 Z2 ltac:(intros; apply N1; now right) ltac:(intros; apply N2; now right)).
        cbn [lex]. rewrite Z.compare_refl. exact IH.
    + split; auto. destruct (Z.eqb_spec x 0) as [->|Hx]; destruct (Z.eqb_spec y 0) as [->|Hy]; cbn [lex]; try lia.
      * symmetry. apply Z.compare_lt_iff. lia.
      * symmetry. apply Z.compare_gt_iff. lia.
      * destruct (Z.compare_spec x y); auto; lia.
Qed.

Lemma string_compare s1 s2 : good_string s1 -> good_string s2 ->
  STRING_LT s1 s2 = match lex (text s1) (text s2) with Lt => true | _ => false end /\
  STRING_LTEQ s1 s2 = match lex (text s1) (text s2) with Gt => false | _ => true end /\
  STRING_GT s1 s2 = match lex (text s1) (text s2) with Gt => true | _ => false end /\
  STRING_GTEQ s1 s2 = match lex (text s1) (text s2) with Lt => false | _ => true end.
Proof.
  intros [Z1 N1] [Z2 N2]. assert (H := first_diff_spec s1 s2 Z1 Z2 N1 N2).
  unfold STRING_LT, STRING_LTEQ, STRING_GT, STRING_GTEQ, string_cmp.
  destruct (first_diff s1 s2) as [[x y]|].
  - destruct H as [Hne ->]. rewrite Z.gtb_ltb. unfold Z.ltb. rewrite (Z.compare_antisym x y).
    destruct (Z.compare_spec x y); simpl; auto. lia.
  - rewrite H. destruct (length s1 =? length s2)%nat; auto.
    destruct (length s1 <? length s2)%nat.
    + destruct (nth (length s1) s2 0 =? 0); auto.
    + destruct (nth (length s2) s1 0 =? 0); auto.
Qed.

Lemma text_nil v : nth 0 v 0 <> 0 <-> text v <> [].
Proof. destruct v as [|x v]; simpl; [split; auto|]. destruct (Z.eqb_spec x 0); split; congruence. Qed.

Lemma zrd_map {A B} (f : A -> B) l i : zrd (map f l) i = option_map f (zrd l i).
Proof. unfold zrd. destruct (0 <=? i); auto. apply nth_error_map. Qed.

Lemma text_bin_is edges v b : bin_is edges (fun e => lex (text e) (text v)) b <-> text_in_bin (map text edges) (text v) b.
Proof.
  unfold bin_is, text_in_bin.
  split.
  - intros [(H & lo & hi & E1 & E2 & C1 & C2)|(-> & e0 & E & C)].
    + left. split; auto. exists (text lo), (text hi). rewrite zrd_some in E1, E2 by lia.
      rewrite !nth_error_map, E1, E2. repeat split; auto. rewrite lex_antisym. destruct (lex (text hi) (text v)); simpl; congruence.
    + right. split; auto. rewrite zrd_some in E by lia. change (Z.to_nat 0) with 0%nat in E. rewrite nth_error_map, E. simpl. f_equal. now apply lex_eq.
  - intros [(H & lo & hi & E1 & E2 & C1 & C2)|(-> & E)].
    + left. split; auto. rewrite nth_error_map in E1, E2.
      destruct (nth_error edges (Z.to_nat (b - 1))) as [lo'|] eqn:F1; [|discriminate].
      destruct (nth_error edges (Z.to_nat b)) as [hi'|] eqn:F2; [|discriminate]. simpl in *. inversion E1; inversion E2; subst.
      exists lo', hi'. rewrite !zrd_some by lia. repeat split; auto. rewrite lex_antisym. destruct (lex (text v) (text hi')); simpl; congruence.
    + right. split; auto. rewrite nth_error_map in E. destruct (nth_error edges 0) as [e|] eqn:F; [|discriminate]. simpl in E. inversion E.
      exists e. split; auto. rewrite H0. apply lex_refl.
Qed.

Lemma cut_string_spec edges v :
  edges_ok (Z.of_nat (length edges)) -> texts_ascending edges -> (forall e, In e edges -> good_string e) -> good_string v ->
  exists r, cut_string edges v = Some r /\ 0 <= r /\
    forall b, 1 <= b -> (r = b <-> text v <> [] /\ text_in_bin (map text edges) (text v) b).
Proof.
  intros Hok Ha Hg Hv. set (n := Z.of_nat (length edges)) in *. unfold cut_string. fold n. rewrite wrap_out_bits by auto.
  destruct (zrd_in edges (n - 1)) as (el & El); [unfold n, edges_ok in *; lia|].
  destruct (zrd_in edges 0) as (ef & Ef); [unfold n, edges_ok in *; lia|]. rewrite El, Ef.
  destruct (Z.eqb_spec (nth 0 v 0) 0) as [E0|E0]; cbn [negb andb].
  { exists 0. split; auto. split; [lia|]. intros b Hb. split; [lia|]. intros [? _]. exfalso. apply text_nil in H. auto. }
  pose (cmp := fun e => lex (text e) (text v)).
  assert (Asc : forall i j x y, i < j -> zrd edges i = Some x -> zrd edges j = Some y -> lex (text x) (text y) = Lt).
  { intros i j x y Hij E1 E2. apply zrd_inv in E1 as [B1 E1]. apply zrd_inv in E2 as [B2 E2]. eapply (Ha (Z.to_nat i) (Z.to_nat j)); eauto. lia. }
  assert (Mono : forall i j x y, i < j -> zrd edges i = Some x -> zrd edges j = Some y -> cmp x <> Lt -> cmp y = Gt).
  { intros i j x y Hij Ex Ey Hc. assert (Q := Asc i j x y Hij Ex Ey). unfold cmp in *.
    destruct (lex (text y) (text v)) eqn:C; auto; exfalso; apply Hc.
    - apply lex_eq in C. rewrite <- C. auto.
    - eapply lex_lt_trans; eauto. }
  destruct (string_compare v ef Hv (Hg _ (zrd_In _ _ _ Ef))) as (_ & _ & _ & Gef).
  destruct (string_compare v el Hv (Hg _ (zrd_In _ _ _ El))) as (_ & Lel & _ & _).
  destruct (STRING_GTEQ v ef && STRING_LTEQ v el) eqn:R.
  - apply andb_true_iff in R as [R1 R2].
    (* replace the functions by ones that agree on the edges *)
    assert (Agree : forall e, In e edges -> STRING_GT e v = match cmp e with Gt => true | _ => false end /\
       STRING_LT e v = match cmp e with Lt => true | _ => false end /\ STRING_LTEQ v e = match cmp e with Lt => false | _ => true end).
    { intros e He. destruct (string_compare e v (Hg _ He) Hv) as (A1 & A2 & A3 & A4).
      destruct (string_compare v e Hv (Hg _ He)) as (B1 & B2 & B3 & B4).
      rewrite A3, A1, B2. unfold cmp. rewrite (lex_antisym (text e) (text v)). destruct (lex (text e) (text v)); auto. }
    pose (gt := fun (e v : list Z) => match cmp e with Gt => true | _ => false end).
    pose (lt := fun (e v : list Z) => match cmp e with Lt => true | _ => false end).
    pose (le := fun (v e : list Z) => match cmp e with Lt => false | _ => true end).
    assert (EqL : forall fuel a b, cut_loop edges (out_bits n) STRING_GT STRING_LT fuel a b v = cut_loop edges (out_bits n) gt lt fuel a b v).
    { induction fuel as [|fuel IH]; intros a b; simpl; auto. destruct (midpoint _ _ _); auto.
      destruct (zrd edges z) eqn:Ez; auto. destruct (Agree l (zrd_In _ _ _ Ez)) as (A1 & A2 & _). rewrite A1, A2. unfold gt, lt.
      destruct (cmp l); rewrite ?IH; auto. }
    assert (EqP : forall f, cut_place edges STRING_LTEQ v f = cut_place edges le v f).
    { intros f. unfold cut_place. destruct (0 <? f); auto. destruct (zrd edges f) eqn:Ez; auto.
      destruct (Agree l (zrd_In _ _ _ Ez)) as (_ & _ & A3). rewrite A3. reflexivity. }
    rewrite EqL.
    destruct (cut_loop_spec edges v cmp gt lt (fun _ => eq_refl) (fun _ => eq_refl) Mono) with (fuel := S (length edges)) (first := 0) (last := n - 1)
      as (f & E & P); try (unfold n, edges_ok in *; auto; lia).
    { intros x Ex. assert (x = el) by (unfold n in *; congruence). subst x. unfold cmp. rewrite Lel in R2. rewrite lex_antisym. destruct (lex (text v) (text el)); simpl; congruence. }
    fold n in E. rewrite E, EqP.
    destruct (cut_place_spec edges v cmp le (fun _ => eq_refl)) with (f := f) as (b & Eb & Bb); auto.
    { intros x Ex. assert (x = ef) by congruence. subst x. unfold cmp. rewrite Gef in R1. rewrite lex_antisym. destruct (lex (text v) (text ef)); simpl; congruence. }
    rewrite Eb. exists b. split; auto. split; [destruct Bb as [[? _]|[-> _]]; lia|].
    intros b' Hb'. rewrite <- text_bin_is. rewrite <- text_nil. split; [intros <-; auto|]. intros [_ Bb'].
    eapply bin_is_inj; eauto.
  - exists 0. split; auto. split; [lia|]. intros b Hb. split; [lia|]. intros [_ B]. exfalso.
    rewrite <- text_bin_is in B. fold cmp in B.
    rewrite Gef, Lel in R. rewrite (lex_antisym (text ef)), (lex_antisym (text el)) in R. fold (cmp ef) in R. fold (cmp el) in R.
    assert (C0 : cmp ef <> Gt /\ cmp el <> Lt -> False) by (intros [? ?]; destruct (cmp ef), (cmp el); simpl in R; congruence).
    apply C0. clear C0 R.
    destruct B as [(H & lo & hi & E1 & E2 & C1 & C2)|(-> & e0 & E & C)].
    + split.
      * intros G. destruct (Z.eq_dec (b - 1) 0) as [Q|Q]; [rewrite Q in E1; congruence|].
        rewrite (Mono 0 (b - 1) ef lo) in C1; try lia; auto; congruence.
      * intros G. apply zrd_inv in E2 as E2'. destruct (Z.eq_dec b (n - 1)) as [Q|Q]; [rewrite Q in E2; congruence|].
        rewrite (Mono b (n - 1) hi el) in G; try (unfold n in *; lia); auto; congruence.
    + assert (e0 = ef) by congruence. subst e0. split; [congruence|]. intros G.
      destruct (Z.eq_dec (n - 1) 0) as [Q|Q]; [rewrite Q in El; congruence|].
      rewrite (Mono 0 (n - 1) ef el) in G; try (unfold n, edges_ok in *; lia); auto; congruence.
Qed.

Lemma cut_string_array ord thr c buf isz n edges d :
  fair ord -> (0 < c)%nat -> (thr = false \/ isz = 1) -> 0 <= isz -> Z.of_nat (length buf) = Z.of_nat n * isz ->
  edges_ok (Z.of_nat (length edges)) -> texts_ascending edges -> (forall e, In e edges -> good_string e) ->
  (forall i, (i < n)%nat -> good_string (firstn (Z.to_nat isz) (skipn (i * Z.to_nat isz) buf))) ->
  exists r, CutString ord thr c buf isz n edges d = Some r /\ length r = n /\
    forall i, (i < n)%nat -> exists x, nth_error r i = Some x /\ 0 <= x /\
      let v := text (firstn (Z.to_nat isz) (skipn (i * Z.to_nat isz) buf)) in
      forall b, 1 <= b -> (x = b <-> v <> [] /\ text_in_bin (map text edges) v b).
Proof.
  intros Ho Hc Hthr Hisz Hlen Hok Ha Hg Hvals.
  pose (val := fun i : nat => firstn (Z.to_nat isz) (skipn (i * Z.to_nat isz) buf)).
  pose (g := fun i => match cut_string edges (val i) with Some x => x | None => d end).
  assert (Hcut : forall i, (i < n)%nat -> cut_string edges (val i) = Some (g i)).
  { intros i Hi. destruct (cut_string_spec edges (val i)) as (r & E & _); auto. { apply Hvals; auto. } unfold g. now rewrite E. }
  assert (Hitem : forall i, (i < n)%nat -> item_at buf isz (Z.of_nat i * isz) = Some (val i)).
  { intros i Hi. unfold item_at. destruct (Z.leb_spec 0 (Z.of_nat i * isz)); [|nia]. destruct (Z.leb_spec (Z.of_nat i * isz + isz) (Z.of_nat (length buf))); [|nia].
    simpl. unfold val. f_equal. f_equal. f_equal. nia. }
  assert (E : CutString ord thr c buf isz n edges d = Some (map g (seq 0 n))).
  { unfold CutString.
    assert (Q : concat (map (fun call : nat * nat => map (fun i => match item_at buf isz (Z.of_nat (fst call) + Z.of_nat i * isz) with
                        | Some v => option_map (fun b => (Z.of_nat (fst call + i), b)) (cut_string edges v)
                        | None => None end) (seq 0 (snd call))) (chunk_calls thr c n)) = map (fun i => Some (Z.of_nat i, g i)) (seq 0 n)).
    { rewrite <- (chunk_calls_map thr c n (fun i => Some (Z.of_nat i, g i)) Hc).
      f_equal. apply map_ext_in. intros [s l] Hin. cbn [fst snd].
      assert (Hsl : (s + l <= n)%nat /\ (s = 0%nat \/ isz = 1)).
      { destruct thr; simpl in Hin.
        - apply chunks_in in Hin; auto. destruct Hthr as [?|?]; [discriminate|]. lia.
        - destruct Hin as [Q|[]]. inversion Q; subst. lia. }
      replace (seq s l) with (map (fun i => (s + i)%nat) (seq 0 l)).
      2:{ clear. revert s; induction l as [|l IH]; intros s; simpl; auto. f_equal; [lia|]. rewrite <- seq_shift, map_map. rewrite <- (IH (S s)). apply map_ext. intros; lia. }
      rewrite map_map. apply map_ext_in. intros i Hi. apply in_seq in Hi.
      replace (Z.of_nat s + Z.of_nat i * isz) with (Z.of_nat (s + i) * isz) by nia.
      rewrite Hitem by lia. rewrite Hcut by lia. reflexivity. }
    rewrite Q. rewrite (all_some_map _ (fun i => (Z.of_nat i, g i))) by auto.
    apply writes_enum.
    - rewrite enum_map_seq by reflexivity. apply Ho.
    - now rewrite repeat_length, map_length, seq_length. }
  exists (map g (seq 0 n)). split; auto. split; [now rewrite map_length, seq_length|].
  intros i Hi. exists (g i). rewrite nth_error_map, nth_error_seq. apply Nat.ltb_lt in Hi as Hi'. rewrite Hi'. split; auto.
  destruct (cut_string_spec edges (val i)) as (r & Er & R1 & R2); auto. { apply Hvals; auto. }
  rewrite Hcut in Er by auto. inversion Er; subst. auto.
Qed.

(** ** ReIndex *)
Lemma reindex {A} ord thr c w (vals : list A) idx d dv : fair ord -> (0 < c)%nat -> 0 < w ->
  (forall k, In k idx -> 0 <= k < Z.of_nat (length vals) /\ k < 2 ^ (w - 1)) ->
  ReIndex ord thr c w vals idx d = Some (map (fun k => nth (Z.to_nat k) vals dv) idx).
Proof.
  intros Ho Hc Hw H. unfold ReIndex. apply (par_map_list ord thr c idx (fun k => zrd vals (wrap w k))); auto.
  intros k Hk. apply H in Hk as [B B2].
  assert (0 < 2 ^ (w - 1)) by (apply Z.pow_pos_nonneg; lia).
  rewrite wrap_id by lia. rewrite zrd_some by lia. apply nth_error_nth'. lia.
Qed.

Lemma remap_index w inp mapper out dv : 0 < w -> length out = length inp ->
  (forall k, In k inp -> 0 <= k < Z.of_nat (length mapper)) ->
  (forall m, In m mapper -> - 2 ^ (w - 1) <= m < 2 ^ (w - 1)) ->
  ReMapIndex w inp mapper out = Some (map (fun k => nth (Z.to_nat k) mapper dv) inp).
Proof.
  intros Hw L H Hm. unfold ReMapIndex. rewrite (all_some_map _ (fun k => nth (Z.to_nat k) mapper dv)).
  - apply writes_enum; auto. now rewrite map_length.
  - intros k Hk. apply H in Hk. rewrite zrd_some by lia. rewrite (nth_error_nth' mapper dv) by lia. simpl. f_equal.
    apply wrap_id; auto. apply Hm. apply nth_In. lia.
Qed.
