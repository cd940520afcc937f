(** Proofs about GroupFromLexSort: the groups of an index that LexSort has made. *)
From Verif Require Import Base Mem SortModel SortSpec Sort5Proofs Sort6Proofs Sort7Proofs Sort8Proofs AllModel AllSpec EaModel EaSpec Ea2Proofs LxModel LxSpec Lx2Proofs Lx3Proofs GlModel GlSpec GlProofs.
Local Open Scope Z_scope.

Lemma concat_ordered {X} (R : X -> X -> Prop) blocks : forall p q b c x y, ForallOrdPairs R (concat blocks) -> (p < q)%nat ->
  nth_error blocks p = Some b -> nth_error blocks q = Some c -> In x b -> In y c -> R x y.
Proof.
  induction blocks as [|b0 bl IH]; intros p q b c x y H L Hp Hq Hx Hy; [destruct p; discriminate|]. cbn [concat] in H. destruct q as [|q]; [lia|]. destruct p as [|p].
  - injection Hp as <-. apply in_split in Hx as (l1 & l2 & ->). rewrite <- app_assoc in H. cbn [app] in H. apply (ordpairs_mid _ _ _ _ y H).
    apply in_or_app. right. apply in_concat. exists c. split; [eapply nth_error_In; eauto|exact Hy].
  - apply (IH p q b c); auto; [|lia]. clear - H. induction b0 as [|z b0 IHb]; [exact H|]. inversion H; auto.
Qed.

(** Rows that come first have smaller keys. *)
Lemma keys_ascend {K} (val : Z -> K) (bef : Z -> Z -> Prop) index keys first cnt : grouping val 1 1 index keys first cnt ->
  ForallOrdPairs (fun x y => ~ bef y x) index -> (forall x y, In x index -> In y index -> val x = val y -> ~ bef x y) ->
  forall x y, In x index -> In y index -> bef x y -> exists kx ky, zrd keys x = Some kx /\ zrd keys y = Some ky /\ kx < ky.
Proof.
  intros (blocks & E & LF & HB & _) OP HS x y Hx Hy B. pose proof Hx as Hx0. pose proof Hy as Hy0. rewrite E in Hx, Hy.
  apply in_concat in Hx as (b & Hb & Hx). apply In_nth_error in Hb as (q & Hq). apply in_concat in Hy as (c & Hc & Hy). apply In_nth_error in Hc as (p & Hp).
  destruct (HB q b Hq) as (i & r & _ & _ & _ & J). destruct (HB p c Hp) as (i' & r' & _ & _ & _ & J'). destruct (J x Hx) as (V & Kx). destruct (J' y Hy) as (V' & Ky).
  exists (Z.of_nat q + 1), (Z.of_nat p + 1). split; [exact Kx|]. split; [exact Ky|]. destruct (Nat.lt_trichotomy q p) as [L|[L|L]]; [lia| |].
  - exfalso. subst p. rewrite Hq in Hp. injection Hp as <-. destruct (J y Hy) as (V2 & _). apply (HS x y); auto. congruence.
  - exfalso. rewrite E in OP. exact (concat_ordered _ blocks p q c b y x OP L Hp Hq Hy Hx B).
Qed.

(** An order of rows is one of their items, if rows that are alike have the same item. *)
Lemma item_order n (lt : Z -> Z -> bool) (val : Z -> list Z) : strict_weak lt ->
  (forall x y, 0 <= x < n -> 0 <= y < n -> (val x = val y <-> lt x y = false /\ lt y x = false)) ->
  exists ilt, forall x y, 0 <= x < n -> 0 <= y < n -> ilt (val x) (val y) = lt x y.
Proof.
  intros (SA & ST) HV. set (R := map Z.of_nat (seq 0 (Z.to_nat n))). set (eqb := fun u w : list Z => if list_eq_dec Z.eq_dec u w then true else false).
  exists (fun u w => existsb (fun i => existsb (fun j => eqb (val i) u && eqb (val j) w && lt i j) R) R). intros x y Hx Hy.
  assert (IR : forall z, In z R <-> 0 <= z < n).
  { intros z. unfold R. rewrite in_map_iff. split; [intros (k & <- & Hk); apply in_seq in Hk; lia|]. intros Hz. exists (Z.to_nat z). split; [lia|]. apply in_seq. lia. }
  destruct (lt x y) eqn:E.
  - apply existsb_exists. exists x. split; [now apply IR|]. apply existsb_exists. exists y. split; [now apply IR|]. rewrite E. unfold eqb.
    destruct (list_eq_dec Z.eq_dec (val x) (val x)); [|contradiction]. destruct (list_eq_dec Z.eq_dec (val y) (val y)); [|contradiction]. reflexivity.
  - match goal with |- ?t = false => destruct t eqn:E2; [|reflexivity] end. exfalso. apply existsb_exists in E2 as (i & Hi & E2). apply existsb_exists in E2 as (j & Hj & E2).
    apply IR in Hi, Hj. apply andb_true_iff in E2 as (E2 & L). apply andb_true_iff in E2 as (E3 & E4). unfold eqb in E3, E4.
    destruct (list_eq_dec Z.eq_dec (val i) (val x)) as [Ei|]; [|discriminate]. destruct (list_eq_dec Z.eq_dec (val j) (val y)) as [Ej|]; [|discriminate].
    apply HV in Ei as (Ei1 & Ei2); auto. apply HV in Ej as (Ej1 & Ej2); auto. destruct (ST i x j L) as [H|H]; [congruence|]. destruct (ST x y j H) as [H'|H']; congruence.
Qed.

Section Groups.
  Context (n : Z) (cols : list (bool * column cell)) (junk : Z) (a : arg Z) (size : nat) (v : arg (list Z)) (f : param bool) (b : option Z).
  Hypothesis HC : Forall (fun c => shaped n (snd c) /\ items_ok (snd c)) cols.
  Hypothesis HA : index_array n a.
  Hypothesis HV : items_array n size v.
  Hypothesis HF : filter_fine (a_len a) f.
  Hypothesis HB : from_one b.
  Hypothesis HS : forall x y, 0 <= x < n -> 0 <= y < n -> (item_at v x = item_at v y <-> rows_alike cols x y).

  Lemma order_exists : exists lt ilt, strict_weak lt /\ (forall x y, 0 <= x < n -> 0 <= y < n -> (lt x y = true <-> row_before cols x y)) /\
    (forall x y, 0 <= x < n -> 0 <= y < n -> ilt (item_at v x) (item_at v y) = lt x y).
  Proof using HC HS.
    destruct (columns_order n cols HC) as (lts & C1 & C2).
    assert (SW : strict_weak (lex_lt lts)) by (apply lex_sw; clear - C1; induction C1; constructor; tauto).
    destruct (item_order n (lex_lt lts) (item_at v) SW) as (ilt & HI).
    { intros x y Hx Hy. rewrite HS by assumption. unfold rows_alike. destruct (C2 x y Hx Hy) as (B1 & _). destruct (C2 y x Hy Hx) as (B2 & _). rewrite <- B1, <- B2.
      destruct (lex_lt lts x y), (lex_lt lts y x); intuition congruence. }
    exists (lex_lt lts), ilt. split; [exact SW|]. split; [|exact HI]. intros x y Hx Hy. now apply C2.
  Qed.

  Lemma vals_len : length (arg_vals [] v) = Z.to_nat n.
  Proof using HV. destruct HV as (_ & (L & _) & _). rewrite arg_vals_len, L. reflexivity. Qed.
  Lemma vals_in x : In x (arg_vals [] v) -> exists i, 0 <= i < n /\ x = item_at v i.
  Proof using HV.
    clear HS. intros H. apply In_nth with (d := []) in H as (k & Hk & E). rewrite vals_len in Hk. exists (Z.of_nat k). split; [lia|]. unfold item_at. rewrite Nat2Z.id. congruence.
  Qed.

  Lemma groups_of_order cut : 0 < n -> size <> 7%nat -> not_given cut -> in_row_order cols 0 n (arg_vals 0 a) ->
    exists g, GroupFromLexSortAll junk a size v cut f b = Done g /\ g_dtype g = key_type a /\ g_uniques g = None /\ g_index g = arg_vals 0 a /\
      grouped (rows_alike cols) n (g_keys g) (g_first g) (g_count g) /\
      forall x y, 0 <= x < n -> 0 <= y < n -> row_before cols x y -> exists kx ky, zrd (g_keys g) x = Some kx /\ zrd (g_keys g) y = Some ky /\ kx < ky.
  Proof using HC HA HV HF HB HS.
    intros N0 S7 NC (P & HO). rewrite (call_is junk n a size v f b HA HV HF), (not_cut (a_len a) cut NC), (base_right b HB). cbn [obind].
    destruct order_exists as (lt & ilt & SW & HL & HI). pose proof SW as (SA & _).
    assert (IN : forall x, In x (arg_vals 0 a) <-> 0 <= x < n).
    { intros x. split; intros H.
      - apply (Permutation_in _ P) in H. apply in_map_iff in H as (k & <- & Hk). apply in_seq in Hk. lia.
      - apply (Permutation_in _ (Permutation_sym P)). apply in_map_iff. exists (Z.to_nat x). split; [lia|]. apply in_seq. lia. }
    destruct (group_items size 1 ilt (arg_vals [] v) (arg_vals 0 a) junk S7) as (key & first & cnt & E & LK & LC & C0 & G & _).
    - destruct HV as (_ & _ & _ & H). exact H.
    - intros x y Hx Hy E1 E2. apply vals_in in Hx as (i & Hi & ->). apply vals_in in Hy as (j & Hj & ->). rewrite HI in E1, E2 by assumption. apply HS; auto.
      unfold rows_alike. rewrite <- !HL by assumption. rewrite E1, E2. split; discriminate.
    - intros j Hj. rewrite vals_len. apply IN in Hj. lia.
    - intros i j x y Hij Hx Hy. rewrite nth_error_map in Hx, Hy. destruct (nth_error (arg_vals 0 a) i) as [r|] eqn:Er; [|discriminate]. destruct (nth_error (arg_vals 0 a) j) as [s|] eqn:Es; [|discriminate].
      injection Hx as <-. injection Hy as <-. fold (item_at v r) (item_at v s). pose proof (proj1 (IN r) (nth_error_In _ _ Er)) as Rr. pose proof (proj1 (IN s) (nth_error_In _ _ Es)) as Rs.
      rewrite HI by assumption. specialize (HO i j r s Hij Er Es). rewrite !Z.add_0_l in HO. destruct HO as [H|((_ & H) & _)].
      + apply HL in H; auto.
      + destruct (lt s r) eqn:El; [|reflexivity]. apply HL in El; auto. contradiction.
    - intros E. assert (In 0 (arg_vals 0 a)) as K by (apply IN; lia). rewrite E in K. destruct K.
    - left. lia.
    - rewrite E. cbn [undef obind]. eexists. split; [reflexivity|]. cbn [g_dtype g_uniques g_index g_keys g_first g_count]. split; [reflexivity|]. split; [reflexivity|]. split; [reflexivity|].
      assert (HSv : forall x y, 0 <= x < n -> 0 <= y < n -> (nth (Z.to_nat x) (arg_vals [] v) [] = nth (Z.to_nat y) (arg_vals [] v) [] <-> rows_alike cols x y)) by exact HS.
      split.
      + apply (grouped_of (fun i => nth (Z.to_nat i) (arg_vals [] v) []) (rows_alike cols) n (arg_vals 0 a)); auto; [lia| |now rewrite LK, vals_len].
        apply ordpairs_nth. intros i j x y Hij Hx Hy V. pose proof (proj1 (IN x) (nth_error_In _ _ Hx)) as Rx. pose proof (proj1 (IN y) (nth_error_In _ _ Hy)) as Ry.
        destruct (HO i j x y Hij Hx Hy) as [H|(_ & H)]; [|exact H]. rewrite !Z.add_0_l in H. apply HSv in V as (V & _); auto. contradiction.
      + intros x y Hx Hy. apply IN in Hx, Hy. revert x y Hx Hy. apply (keys_ascend (fun i => nth (Z.to_nat i) (arg_vals [] v) []) (row_before cols) (arg_vals 0 a) key first cnt G).
        * apply ordpairs_nth. intros i j x y Hij Hx Hy H. pose proof (proj1 (IN x) (nth_error_In _ _ Hx)) as Rx. pose proof (proj1 (IN y) (nth_error_In _ _ Hy)) as Ry.
          destruct (HO i j x y Hij Hx Hy) as [H'|((_ & H') & _)]; rewrite !Z.add_0_l in H'; [|contradiction]. apply HL in H, H'; auto. rewrite (SA _ _ H) in H'. discriminate.
        * intros x y Hx Hy V. apply IN in Hx, Hy. apply HSv in V as (V & _); auto.
  Qed.
End Groups.
