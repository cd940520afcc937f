From Verif Require Import Base MemLemmas Par Num BinsModel BinsSpec.
Local Open Scope Z_scope.

Lemma out_bits_cases n : out_bits n = 8 /\ n <= 100 \/ out_bits n = 16 /\ n <= 30000 \/ out_bits n = 32 /\ n <= 2000000000 \/ out_bits n = 64 /\ 2000000000 < n.
Proof.
  unfold out_bits. destruct (Z.ltb_spec 2000000000 n); [lia|]. destruct (Z.ltb_spec 30000 n); [lia|].
  destruct (Z.ltb_spec 100 n); lia.
Qed.

Lemma wrap_out_bits n : edges_ok n -> wrap (out_bits n) n = n.
Proof.
  intros [H0 H]. change (2 ^ 30) with 1073741824 in H. change (2 ^ 62) with 4611686018427387904 in H.
  destruct (out_bits_cases n) as [[-> Hn]|[[-> Hn]|[[-> Hn]|[-> Hn]]]]; apply wrap_id; try lia.
  all: simpl Z.sub; match goal with |- context [2 ^ ?k] => let v := eval vm_compute in (2 ^ k) in change (2 ^ k) with v end; lia.
Qed.

Lemma midpoint_some n a b : edges_ok n -> 0 <= a <= b -> b < n -> midpoint (out_bits n) a b = Some ((a + b) / 2).
Proof.
  intros [H0 H] Ha Hb. unfold midpoint.
  change (2 ^ 30) with 1073741824 in H. change (2 ^ 62) with 4611686018427387904 in H.
  rewrite Z.shiftr_div_pow2 by lia. change (2 ^ 1) with 2.
  destruct (Z.ltb_spec (a + b) (2 ^ (Z.max 32 (out_bits n) - 1))) as [_|Hc]; auto. exfalso.
  destruct (out_bits_cases n) as [[E Hn]|[[E Hn]|[[E Hn]|[E Hn]]]]; rewrite E in Hc; cbn in Hc; lia.
Qed.

Lemma zrd_in {A} (l : list A) i : 0 <= i < Z.of_nat (length l) -> exists x, zrd l i = Some x.
Proof. intros H. rewrite zrd_some by lia. apply nth_error_lt. lia. Qed.

Section Search.
  Context {K V : Type} (edges : list K).
  Let n := Z.of_nat (length edges).
  Context (v : V).

  Section SS.
    Context (up : K -> V -> bool).
    Context (mono : forall i j x y, i < j -> zrd edges i = Some x -> zrd edges j = Some y -> up y v = true -> up x v = true).

    Lemma ss_loop_spec fuel : edges_ok n -> forall first last,
      0 <= first <= last -> last < n -> last - first < Z.of_nat fuel ->
      (forall i x, 0 <= i < first -> zrd edges i = Some x -> up x v = true) ->
      (forall i x, last < i -> zrd edges i = Some x -> up x v = false) ->
      exists f, ss_loop edges (out_bits n) up fuel first last v = Some f /\ 0 <= f <= n /\
        (forall i x, 0 <= i < f -> zrd edges i = Some x -> up x v = true) /\
        (forall i x, f <= i -> zrd edges i = Some x -> up x v = false).
    Proof.
      intros Hok. induction fuel as [|fuel IH]; intros first last Hf Hl Hfu Hlo Hhi; [lia|].
      cbn [ss_loop]. rewrite (midpoint_some n) by (auto; lia).
      set (m := (first + last) / 2). assert (Hm : first <= m <= last) by (unfold m; lia). clearbody m.
      destruct (zrd_in edges m) as (e & E); [unfold n in *; lia|]. rewrite E.
      destruct (up e v) eqn:U.
      - assert (Hlo' : forall i x, 0 <= i < m + 1 -> zrd edges i = Some x -> up x v = true).
        { intros i x Hi Ex. destruct (Z.eq_dec i m) as [->|]; [congruence|]. eapply mono; [| |exact E|]; eauto; lia. }
        destruct (Z.ltb_spec last (m + 1)).
        + exists (m + 1). repeat split; auto; try lia. intros i x Hi Ex. apply (Hhi i); auto; lia.
        + apply IH; auto; lia.
      - assert (Hhi' : forall i x, m - 1 < i -> zrd edges i = Some x -> up x v = false).
        { intros i x Hi Ex. destruct (Z.eq_dec i m) as [->|]; [congruence|].
          destruct (up x v) eqn:U2; auto. rewrite (mono m i e x) in U; auto; lia. }
        destruct (Z.ltb_spec (m - 1) first).
        + exists first. repeat split; auto; try lia. intros i x Hi Ex. apply (Hhi' i); auto; lia.
        + apply IH; auto; lia.
    Qed.
  End SS.

  Section Cut.
    Context (cmp : K -> comparison) (gt lt : K -> V -> bool) (le : V -> K -> bool).
    Context (Hgt : forall e, gt e v = match cmp e with Gt => true | _ => false end).
    Context (Hlt : forall e, lt e v = match cmp e with Lt => true | _ => false end).
    Context (Hle : forall e, le v e = match cmp e with Lt => false | _ => true end).
    Context (mono : forall i j x y, i < j -> zrd edges i = Some x -> zrd edges j = Some y -> cmp x <> Lt -> cmp y = Gt).
    Context (inlast : forall x, zrd edges (n - 1) = Some x -> cmp x <> Lt).
    Context (infirst : forall x, zrd edges 0 = Some x -> cmp x <> Gt).

    Definition cut_post (first : Z) : Prop :=
      0 <= first <= n - 1 /\
      (first = 0 \/ exists x, zrd edges (first - 1) = Some x /\ cmp x = Lt) /\
      ((exists x, zrd edges first = Some x /\ cmp x <> Lt) \/ (first + 1 <= n - 1 /\ exists x, zrd edges (first + 1) = Some x /\ cmp x = Gt)).

    Lemma cut_loop_spec fuel : edges_ok n -> forall first last,
      0 <= first <= last -> last <= n - 1 -> last - first < Z.of_nat fuel ->
      (first = 0 \/ exists x, zrd edges (first - 1) = Some x /\ cmp x = Lt) ->
      (last = n - 1 \/ exists x, zrd edges (last + 1) = Some x /\ cmp x = Gt) ->
      exists f, cut_loop edges (out_bits n) gt lt fuel first last v = Some f /\ cut_post f.
    Proof using Hgt Hlt mono inlast.
      clear Hle infirst le.
      intros Hok. induction fuel as [|fuel IH]; intros first last Hf Hl Hfu Hlo Hhi; [lia|].
      cbn [cut_loop]. rewrite (midpoint_some n) by (auto; lia).
      set (m := (first + last) / 2). assert (Hm : first <= m <= last) by (unfold m; lia). clearbody m.
      destruct (zrd_in edges m) as (e & E); [unfold n in *; lia|]. rewrite E, Hgt, Hlt.
      destruct (cmp e) eqn:C.
      - (* equal *) exists m. split; auto. split; [lia|]. split.
        + destruct (Z.eq_dec m 0); [now left|right].
          destruct (zrd_in edges (m - 1)) as (e' & E'); [unfold n in *; lia|]. exists e'. split; auto.
          destruct (cmp e') eqn:C'; auto; rewrite (mono (m - 1) m e' e) in C; auto; try lia; congruence.
        + left. exists e. split; auto. congruence.
      - (* e < v *)
        destruct (Z.leb_spec last (m + 1)).
        + exists (m + 1). split; auto.
          assert (Hr : m + 1 <= n - 1).
          { destruct (Z.eq_dec m (n - 1)) as [->|]; [|lia]. exfalso. now apply (inlast e). }
          split; [lia|]. split.
          * right. exists e. replace (m + 1 - 1) with m by lia. auto.
          * destruct (zrd_in edges (m + 1)) as (e' & E'); [unfold n in *; lia|].
            destruct (cmp e') eqn:C'; [left; exists e'; split; auto; congruence| |left; exists e'; split; auto; congruence].
            right. destruct Hhi as [->|(x & Ex & Cx)].
            -- exfalso. assert (m + 1 = n - 1) as Q by lia. rewrite Q in E'. now apply (inlast e').
            -- destruct (Z.eq_dec last m) as [->|].
               { rewrite E' in Ex. congruence. }
               replace (m + 1) with last in * by lia.
               assert (last + 1 <= n - 1) by (apply zrd_inv in Ex; unfold n; lia). split; [lia|]. eauto.
        + apply IH; auto; try lia. right. exists e. replace (m + 1 - 1) with m by lia. auto.
      - (* e > v *)
        destruct (Z.leb_spec (m - 1) first).
        + exists first. split; auto. split; [lia|]. split; auto.
          destruct (Z.eq_dec m first) as [Q|].
          * left. exists e. rewrite <- Q. split; auto. congruence.
          * right. replace (first + 1) with m by lia. split; [lia|]. eauto.
        + apply IH; auto; try lia. right. exists e. replace (m - 1 + 1) with m by lia. auto.
    Qed.

    Definition bin_is (b : Z) : Prop :=
      (1 <= b /\ exists lo hi, zrd edges (b - 1) = Some lo /\ zrd edges b = Some hi /\ cmp lo = Lt /\ cmp hi <> Lt)
      \/ (b = 1 /\ exists e0, zrd edges 0 = Some e0 /\ cmp e0 = Eq).

    Lemma cut_place_spec f : cut_post f -> exists b, cut_place edges le v f = Some b /\ bin_is b.
    Proof using Hle infirst.
      clear Hgt Hlt mono inlast gt lt.
      intros (Hr & Hlo & Hhi). unfold cut_place.
      destruct (zrd_in edges f) as (e & E); [unfold n in *; lia|].
      destruct (Z.ltb_spec 0 f).
      - destruct Hlo as [->|(x & Ex & Cx)]; [lia|]. rewrite E, Hle.
        destruct (cmp e) eqn:C.
        + exists f. split; auto. left. split; [lia|]. exists x, e. repeat split; auto. congruence.
        + exists (f + 1). split; auto. left. split; [lia|].
          destruct Hhi as [(y & Ey & Cy)|(Hn & y & Ey & Cy)]; [congruence|].
          exists e, y. replace (f + 1 - 1) with f by lia. repeat split; auto. congruence.
        + exists f. split; auto. left. split; [lia|]. exists x, e. repeat split; auto. congruence.
      - assert (f = 0) by lia. subst f. exists 1. split; auto.
        destruct (cmp e) eqn:C.
        + right. split; auto. eauto.
        + left. split; [lia|]. destruct Hhi as [(y & Ey & Cy)|(Hn & y & Ey & Cy)]; [congruence|].
          exists e, y. repeat split; auto. congruence.
        + exfalso. now apply (infirst e).
    Qed.

    Lemma bin_is_inj a b : bin_is a -> bin_is b -> a = b.
    Proof using mono.
      clear Hgt Hlt Hle inlast infirst gt lt le.
      assert (W : forall a b, a < b -> bin_is a -> bin_is b -> False).
      { intros x y Hxy [(H1 & lo & hi & E1 & E2 & C1 & C2)|(-> & e0 & E1 & C1)] [(H2 & lo' & hi' & E3 & E4 & C3 & C4)|(-> & e0' & E3 & C3)]; try lia.
        - destruct (Z.eq_dec x (y - 1)) as [->|]; [congruence|].
          rewrite (mono x (y - 1) hi lo') in C3; auto; try lia; congruence.
        - rewrite (mono 0 (y - 1) e0 lo') in C3; auto; try lia; congruence. }
      intros Ha Hb. destruct (Z.lt_trichotomy a b) as [H|[H|H]]; auto; exfalso; eauto.
    Qed.
  End Cut.
End Search.

(** ** Numbers *)
Lemma flt_fin a v : flt (Fin a) v = match v with Fin z => a <? z | PInf => true | _ => false end.
Proof. now destruct v. Qed.
Lemma fle_fin a v : fle (Fin a) v = match v with Fin z => a <=? z | PInf => true | _ => false end.
Proof. destruct v; unfold fle; simpl; auto. lia. Qed.
Lemma flt_fin_r a v : flt v (Fin a) = match v with Fin z => z <? a | NInf => true | _ => false end.
Proof. now destruct v. Qed.
Lemma fle_fin_r a v : fle v (Fin a) = match v with Fin z => z <=? a | NInf => true | _ => false end.
Proof. destruct v; unfold fle; simpl; auto. lia. Qed.

Lemma filter_prefix {A} (p : A -> bool) l f : 0 <= f <= Z.of_nat (length l) ->
  (forall i x, 0 <= i < f -> zrd l i = Some x -> p x = true) ->
  (forall i x, f <= i -> zrd l i = Some x -> p x = false) ->
  Z.of_nat (length (filter p l)) = f.
Proof.
  revert f; induction l as [|x l IH]; simpl; intros f Hf H1 H2; [lia|].
  assert (S0 : forall i, 0 <= i -> zrd (x :: l) (i + 1) = zrd l i).
  { intros i Hi. rewrite !zrd_some by lia. replace (Z.to_nat (i + 1)) with (S (Z.to_nat i)) by lia. reflexivity. }
  destruct (Z.eq_dec f 0) as [->|Hn].
  - rewrite (H2 0 x) by (auto; lia). apply IH; [lia| |]; intros i y Hi E; [lia|].
    apply (H2 (i + 1)); [lia|]. now rewrite S0.
  - rewrite (H1 0 x) by (auto; lia). cbn [length].
    assert (Z.of_nat (length (filter p l)) = f - 1); [|lia].
    apply IH; [lia| |]; intros i y Hi E.
    + apply (H1 (i + 1)); [lia|]. rewrite S0; auto; lia.
    + apply (H2 (i + 1)); [lia|]. rewrite S0; auto; lia.
Qed.

Lemma asc_zrd l i j x y : ascending l -> i < j -> zrd l i = Some x -> zrd l j = Some y -> x <= y.
Proof.
  intros H Hij E1 E2. apply zrd_inv in E1 as [B1 E1]. apply zrd_inv in E2 as [B2 E2].
  eapply (H (Z.to_nat i) (Z.to_nat j)); eauto. lia.
Qed.
Lemma sasc_zrd l i j x y : strictly_ascending l -> i < j -> zrd l i = Some x -> zrd l j = Some y -> x < y.
Proof.
  intros H Hij E1 E2. apply zrd_inv in E1 as [B1 E1]. apply zrd_inv in E2 as [B2 E2].
  eapply (H (Z.to_nat i) (Z.to_nat j)); eauto. lia.
Qed.
Lemma zrd_In {A} (l : list A) i x : zrd l i = Some x -> In x l.
Proof. intros E. apply zrd_inv in E as [_ E]. eapply nth_error_In; eauto. Qed.

Section Numbers.
  Context (castT castB : Z -> Z) (edges : list Z).
  Let n := Z.of_nat (length edges).
  Context (Hcast : casts_agree castT castB edges) (Hok : edges_ok n).
  Notation conv := (conv castB).

  Lemma conv_lt e v : In e edges -> flt (Fin (castT e)) v = flt (Fin e) (conv v) /\ flt v (Fin (castT e)) = flt (conv v) (Fin e)
     /\ fle (Fin (castT e)) v = fle (Fin e) (conv v) /\ fle v (Fin (castT e)) = fle (conv v) (Fin e).
  Proof.
    intros He. destruct v as [| |z|]; simpl conv; rewrite ?flt_fin, ?fle_fin, ?flt_fin_r, ?fle_fin_r; auto.
    destruct (Hcast e z He). repeat split; apply eq_true_iff_eq; lia.
  Qed.

  Lemma num_nan v : is_nan (conv v) = is_nan v.
  Proof. now destruct v. Qed.

  Lemma search_right_spec v : ascending edges -> search_right castT castB edges v = Some (count_le edges (conv v)).
  Proof.
    intros Ha. unfold search_right. fold n. rewrite wrap_out_bits by auto.
    destruct (zrd_in edges (n - 1)) as (el & El); [unfold n, edges_ok in *; lia|].
    destruct (zrd_in edges 0) as (ef & Ef); [unfold n, edges_ok in *; lia|]. rewrite El, Ef.
    destruct (conv_lt el v (zrd_In _ _ _ El)) as (L1 & L2 & L3 & L4).
    destruct (conv_lt ef v (zrd_In _ _ _ Ef)) as (F1 & F2 & F3 & F4).
    rewrite F3, F2, L2. set (u := conv v).
    unfold count_le.
    assert (Mono : forall i j x y, i < j -> zrd edges i = Some x -> zrd edges j = Some y -> fle (Fin y) u = true -> fle (Fin x) u = true).
    { intros i j x y Hij Ex Ey. assert (Q := asc_zrd _ _ _ _ _ Ha Hij Ex Ey). rewrite !fle_fin. destruct u; auto; lia. }
    assert (Le : forall i x, zrd edges i = Some x -> ef <= x /\ x <= el).
    { intros i x Ex. assert (B := zrd_inv _ _ _ Ex). split.
      - destruct (Z.eq_dec i 0) as [->|]; [assert (x = ef) by congruence; lia|]. eapply asc_zrd; [exact Ha| |exact Ef|exact Ex]. lia.
      - destruct (Z.eq_dec i (n - 1)) as [->|]; [assert (x = el) by congruence; lia|]. eapply asc_zrd; [exact Ha| |exact Ex|exact El]. unfold n; lia. }
    destruct (fle (Fin ef) u && flt u (Fin el)) eqn:R.
    - apply andb_true_iff in R as [R1 R2].
      destruct (ss_loop_spec edges u (fun e v => fle (Fin e) v) Mono (S (length edges)) Hok 0 (n - 1)) as (f & E & Hf & H1 & H2);
        try (unfold n, edges_ok in *; lia).
      { intros i x Hi Ex. apply zrd_inv in Ex. unfold n in *. lia. }
      fold n in E. rewrite E. f_equal. symmetry. apply filter_prefix; auto.
      + intros i x Hi Ex. unfold num_le. rewrite (H1 i x) by auto. apply orb_true_r.
      + intros i x Hi Ex. unfold num_le. rewrite (H2 i x) by auto. rewrite fle_fin in R1. destruct u; auto; discriminate.
    - destruct (flt u (Fin ef)) eqn:R2.
      + f_equal. symmetry. apply filter_prefix; try lia. intros i x Hi Ex. destruct (Le i x Ex).
        unfold num_le. rewrite fle_fin. rewrite flt_fin_r in R2. destruct u; simpl; auto; try discriminate. lia.
      + f_equal. symmetry. replace (n - 1 + 1) with n by lia. apply filter_prefix; try (unfold n; lia).
        * intros i x Hi Ex. destruct (Le i x Ex). unfold num_le. rewrite fle_fin. rewrite fle_fin, flt_fin_r in R. rewrite flt_fin_r in R2.
          destruct u; simpl in *; auto; try discriminate. lia.
        * intros i x Hi Ex. apply zrd_inv in Ex. unfold n in *. lia.
  Qed.

  Lemma search_left_spec v : ascending edges -> search_left castT castB edges v = Some (count_lt edges (conv v)).
  Proof.
    intros Ha. unfold search_left. fold n. rewrite wrap_out_bits by auto.
    destruct (zrd_in edges (n - 1)) as (el & El); [unfold n, edges_ok in *; lia|].
    destruct (zrd_in edges 0) as (ef & Ef); [unfold n, edges_ok in *; lia|]. rewrite El, Ef.
    destruct (conv_lt el v (zrd_In _ _ _ El)) as (L1 & L2 & L3 & L4).
    destruct (conv_lt ef v (zrd_In _ _ _ Ef)) as (F1 & F2 & F3 & F4).
    rewrite F1, F4, L4. set (u := conv v).
    unfold count_lt.
    assert (Mono : forall i j x y, i < j -> zrd edges i = Some x -> zrd edges j = Some y -> flt (Fin y) u = true -> flt (Fin x) u = true).
    { intros i j x y Hij Ex Ey. assert (Q := asc_zrd _ _ _ _ _ Ha Hij Ex Ey). rewrite !flt_fin. destruct u; auto; lia. }
    assert (Le : forall i x, zrd edges i = Some x -> ef <= x /\ x <= el).
    { intros i x Ex. assert (B := zrd_inv _ _ _ Ex). split.
      - destruct (Z.eq_dec i 0) as [->|]; [assert (x = ef) by congruence; lia|]. eapply asc_zrd; [exact Ha| |exact Ef|exact Ex]. lia.
      - destruct (Z.eq_dec i (n - 1)) as [->|]; [assert (x = el) by congruence; lia|]. eapply asc_zrd; [exact Ha| |exact Ex|exact El]. unfold n; lia. }
    destruct (flt (Fin ef) u && fle u (Fin el)) eqn:R.
    - apply andb_true_iff in R as [R1 R2].
      destruct (ss_loop_spec edges u (fun e v => flt (Fin e) v) Mono (S (length edges)) Hok 0 (n - 1)) as (f & E & Hf & H1 & H2);
        try (unfold n, edges_ok in *; lia).
      { intros i x Hi Ex. apply zrd_inv in Ex. unfold n in *. lia. }
      fold n in E. rewrite E. f_equal. symmetry. apply filter_prefix; auto.
      + intros i x Hi Ex. unfold num_lt. rewrite (H1 i x) by auto. cbn. apply orb_true_r.
      + intros i x Hi Ex. unfold num_lt. rewrite (H2 i x) by auto. rewrite flt_fin in R1. destruct u; auto; discriminate.
    - destruct (fle u (Fin ef)) eqn:R2.
      + f_equal. symmetry. apply filter_prefix; try lia. intros i x Hi Ex. destruct (Le i x Ex).
        unfold num_lt. rewrite flt_fin. rewrite fle_fin_r in R2. destruct u; simpl; auto; try discriminate. lia.
      + f_equal. symmetry. replace (n - 1 + 1) with n by lia. apply filter_prefix; try (unfold n; lia).
        * intros i x Hi Ex. destruct (Le i x Ex). unfold num_lt. rewrite flt_fin. rewrite flt_fin, fle_fin_r in R. rewrite fle_fin_r in R2.
          destruct u; simpl in *; auto; try discriminate. lia.
        * intros i x Hi Ex. apply zrd_inv in Ex. unfold n in *. lia.
  Qed.

  Definition fcmp (u : fl) (e : Z) : comparison :=
    match u with Fin z => e ?= z | PInf => Lt | _ => Gt end.

  Lemma zrd_of_nth {A} (l : list A) b : 0 <= b -> zrd l b = nth_error l (Z.to_nat b).
  Proof. intros. now apply zrd_some. Qed.

  Lemma in_bin_bin_is u b : is_nan u = false -> bin_is edges (fcmp u) b <-> in_bin edges u b.
  Proof.
    intros Hu. unfold bin_is, in_bin.
    assert (G1 : forall e, fcmp u e = Lt <-> flt (Fin e) u = true).
    { intros e. rewrite flt_fin. destruct u; simpl; try (split; congruence). rewrite Z.compare_lt_iff. lia. }
    assert (G2 : forall e, fcmp u e <> Lt <-> fle u (Fin e) = true).
    { intros e. rewrite fle_fin_r. destruct u; simpl in *; try (split; congruence). rewrite Z.compare_lt_iff. lia. }
    assert (G3 : forall e, fcmp u e = Eq <-> feq u (Fin e) = true).
    { intros e. destruct u; simpl in *; try (split; congruence). rewrite Z.compare_eq_iff. lia. }
    split; (intros [(H & lo & hi & E1 & E2 & C1 & C2)|(-> & e0 & E & C)]; [left; split; auto; exists lo, hi|right; split; auto; exists e0]).
    - rewrite zrd_of_nth in E1, E2 by lia. rewrite <- G1, <- G2. auto.
    - rewrite zrd_of_nth in E by lia. rewrite <- G3. auto.
    - rewrite !zrd_of_nth by lia. rewrite G1, G2. auto.
    - rewrite !zrd_of_nth by lia. rewrite G3. auto.
  Qed.

  Lemma cut_one_spec ok v : strictly_ascending edges -> (ok v = true -> is_nan v = false) ->
    exists r, cut_one castT castB ok edges v = Some r /\ 0 <= r /\
      forall b, 1 <= b -> (r = b <-> ok v = true /\ in_bin edges (conv v) b).
  Proof.
    intros Ha Hnan. unfold cut_one. fold n. rewrite wrap_out_bits by auto.
    destruct (zrd_in edges (n - 1)) as (el & El); [unfold n, edges_ok in *; lia|].
    destruct (zrd_in edges 0) as (ef & Ef); [unfold n, edges_ok in *; lia|]. rewrite El, Ef.
    destruct (conv_lt el v (zrd_In _ _ _ El)) as (L1 & L2 & L3 & L4).
    destruct (conv_lt ef v (zrd_In _ _ _ Ef)) as (F1 & F2 & F3 & F4).
    rewrite F3, L4. set (u := conv v).
    destruct (ok v) eqn:Ov; cbn [andb].
    2:{ exists 0. split; auto. split; [lia|]. intros b Hb. split; [lia|]. intros [? _]; discriminate. }
    assert (Hu : is_nan u = false) by (unfold u; rewrite num_nan; auto).
    assert (Mono : forall i j x y, i < j -> zrd edges i = Some x -> zrd edges j = Some y -> fcmp u x <> Lt -> fcmp u y = Gt).
    { intros i j x y Hij Ex Ey. assert (Q := sasc_zrd _ _ _ _ _ Ha Hij Ex Ey). unfold fcmp. destruct u; auto; try congruence.
      rewrite Z.compare_lt_iff, Z.compare_gt_iff. lia. }
    destruct (fle (Fin ef) u && fle u (Fin el)) eqn:R.
    - apply andb_true_iff in R as [R1 R2].
      assert (IL : forall x, zrd edges (n - 1) = Some x -> fcmp u x <> Lt).
      { intros x Ex. assert (x = el) by congruence. subst x. rewrite fle_fin_r in R2. destruct u; simpl in *; try congruence. rewrite Z.compare_lt_iff. lia. }
      assert (IF : forall x, zrd edges 0 = Some x -> fcmp u x <> Gt).
      { intros x Ex. assert (x = ef) by congruence. subst x. rewrite fle_fin in R1. destruct u; simpl in *; try congruence. rewrite Z.compare_gt_iff. lia. }
      assert (Hgt : forall e, flt u (Fin e) = match fcmp u e with Gt => true | _ => false end).
      { intros e. rewrite flt_fin_r. destruct u; simpl in *; auto; try discriminate. unfold Z.ltb. rewrite Z.compare_antisym. destruct (e ?= z); auto. }
      assert (Hlt : forall e, flt (Fin e) u = match fcmp u e with Lt => true | _ => false end).
      { intros e. rewrite flt_fin. destruct u; simpl in *; auto. }
      assert (Hle : forall e, fle u (Fin e) = match fcmp u e with Lt => false | _ => true end).
      { intros e. rewrite fle_fin_r. destruct u; simpl in *; auto; try discriminate. unfold Z.leb. rewrite Z.compare_antisym. destruct (e ?= z); auto. }
      destruct (cut_loop_spec edges u (fcmp u) (fun e v => flt v (Fin e)) (fun e v => flt (Fin e) v) Hgt Hlt Mono IL (S (length edges)) Hok 0 (n - 1))
        as (f & E & P); try (unfold n, edges_ok in *; lia).
      fold n in E. rewrite E.
      destruct (cut_place_spec edges u (fcmp u) (fun v e => fle v (Fin e)) Hle IF f P) as (b & Eb & Bb).
      rewrite Eb. exists b. split; auto. split; [destruct Bb as [[? _]|[-> _]]; lia|].
      intros b' Hb'. rewrite <- in_bin_bin_is by auto. split; [intros <-; auto|]. intros [_ Bb'].
      eapply bin_is_inj; eauto.
    - exists 0. split; auto. split; [lia|]. intros b Hb. split; [lia|]. intros [_ B]. exfalso.
      assert (Le : forall i x, nth_error edges i = Some x -> ef <= x /\ x <= el).
      { intros i x Ex. assert (B0 := nth_error_Some_lt _ _ _ Ex).
        assert (Ez : zrd edges (Z.of_nat i) = Some x) by (rewrite zrd_some by lia; now rewrite Nat2Z.id). split.
        - destruct (Z.eq_dec (Z.of_nat i) 0) as [Q|]; [rewrite Q in Ez; assert (x = ef) by congruence; lia|]. enough (ef < x) by lia. eapply sasc_zrd; [exact Ha| |exact Ef|exact Ez]. lia.
        - destruct (Z.eq_dec (Z.of_nat i) (n - 1)) as [Q|]; [rewrite Q in Ez; assert (x = el) by congruence; lia|]. enough (x < el) by lia. eapply sasc_zrd; [exact Ha| |exact Ez|exact El]. unfold n; lia. }
      destruct B as [(H & lo & hi & E1 & E2 & C1 & C2)|(-> & e0 & E & C)].
      + destruct (Le _ _ E1), (Le _ _ E2). rewrite flt_fin in C1. rewrite fle_fin_r in C2. rewrite fle_fin, fle_fin_r in R. destruct u; simpl in *; try congruence. lia.
      + destruct (Le _ _ E). unfold feq in C. rewrite fle_fin, fle_fin_r in R. destruct u; simpl in *; try congruence. 
        assert (e0 = ef). { rewrite zrd_some in Ef by lia. simpl in Ef. congruence. } lia.
  Qed.
End Numbers.
