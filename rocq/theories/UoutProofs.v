From Verif Require Import Base Mem MemLemmas Par LayoutModel LayoutSpec LayoutProofs UoutModel UoutSpec.
Local Open Scope Z_scope.

(** ** A new array: the same items as ConvertSafe *)
Lemma new_safe ord thr l osize : good l -> 0 < osize -> snd (UnaryNew ord thr l osize) = ConvertSafe ord thr l osize.
Proof.
  intros [P L] Hs. unfold UnaryNew, ConvertSafe, unary_calls. pose proof (contig_new (f_flag (isz l) (dims l) (strides l)) (dims l) osize Hs P) as E.
  destruct (GetStridesAndContig l) as [d s]. rewrite E. destruct (d =? 0); cbn [andb snd Z.eqb]; auto.
  destruct (d =? 1); cbn [andb snd]; auto. destruct (d =? -1); cbn [andb snd]; auto.
Qed.
Lemma new_dims ord thr l osize : (1 <= length (dims l))%nat -> fst (UnaryNew ord thr l osize) = dims l.
Proof.
  intros N. unfold UnaryNew. destruct (GetStridesAndContig l) as [d s]. destruct (d =? 0); auto. cbn [fst].
  destruct (Nat.leb_spec (length (dims l)) 1); auto. destruct (dims l) as [|x [|]]; simpl in *; try lia. now rewrite Nat.mul_1_r.
Qed.

(** ** The writes *)
Lemma nodup_map_in {A B} (h : A -> B) xs : (forall x y, In x xs -> In y xs -> h x = h y -> x = y) -> NoDup xs -> NoDup (map h xs).
Proof.
  intros H N. induction N as [|x xs Nx N IH]; [constructor|]. cbn. constructor; [|apply IH; intros; apply H; cbn; auto].
  intros I. apply in_map_iff in I as (y & E & I). apply Nx. rewrite (H x y); cbn; auto.
Qed.
Lemma steps_ok {V} (f : V -> V) a b cs : NoDup (map fst cs) -> (forall c c', In c cs -> In c' cs -> a + snd c = b + fst c' -> c = c') -> forall m,
  (forall c, In c cs -> fold_left (step f a b) cs m (b + fst c) = f (m (a + snd c))) /\
  (forall x, (forall c, In c cs -> x <> b + fst c) -> fold_left (step f a b) cs m x = m x).
Proof.
  induction cs as [|c cs IH]; intros ND H m; [split; [easy|auto]|]. cbn [map fold_left] in *. inversion ND as [|? ? N1 N2]; subst.
  destruct (IH N2 ltac:(intros; apply H; cbn; auto) (step f a b m c)) as [I1 I2]. split.
  - intros c' [<- | I].
    + rewrite I2; [unfold step; now rewrite Z.eqb_refl|]. intros c' I E. apply N1. assert (fst c = fst c') as -> by lia. now apply in_map.
    + rewrite I1 by auto. unfold step. destruct (Z.eqb_spec (a + snd c') (b + fst c)) as [E|]; auto.
      apply H in E; [subst; exfalso; apply N1; now apply in_map|cbn; auto|cbn; auto].
  - intros x Hx. rewrite I2 by (intros c' I; apply Hx; cbn; auto). unfold step. destruct (Z.eqb_spec x (b + fst c)); auto. exfalso. apply (Hx c); cbn; auto.
Qed.

(** ** Every position has an index *)
Lemma posC_onto ds : Forall (fun d => 0 < d)%nat ds -> forall p, (p < prod ds)%nat -> exists idx, valid ds idx /\ posC ds idx = p.
Proof.
  induction 1 as [|d ds Hd P IH]; intros p Hp; [exists []; split; [constructor|simpl in *; lia]|].
  pose proof (prod_pos ds P) as PP. destruct (IH (p mod prod ds)%nat) as (r & V & E); [apply Nat.mod_upper_bound; lia|].
  exists (p / prod ds :: r)%nat. split; [constructor; auto; apply Nat.div_lt_upper_bound; simpl in *; lia|]. simpl. rewrite E.
  pose proof (Nat.div_mod p (prod ds)). lia.
Qed.
Lemma posF_onto ds : Forall (fun d => 0 < d)%nat ds -> forall p, (p < prod ds)%nat -> exists idx, valid ds idx /\ posF ds idx = p.
Proof.
  induction 1 as [|d ds Hd P IH]; intros p Hp; [exists []; split; [constructor|simpl in *; lia]|].
  destruct (IH (p / d)%nat) as (r & V & E); [apply Nat.div_lt_upper_bound; simpl in *; lia|].
  exists (p mod d :: r)%nat. split; [constructor; auto; apply Nat.mod_upper_bound; lia|]. simpl. rewrite E.
  pose proof (Nat.div_mod p d). lia.
Qed.

(** ** An output array *)
Section out.
  Context {V : Type} (f : V -> V) (l out : layout) (a b : Z) (pos : list nat -> nat) (so : Z) (g : nat -> Z).
  Hypothesis Hd : dims out = dims l.
  Hypothesis Hl : forall idx, valid (dims l) idx -> (pos idx < prod (dims l))%nat.
  Hypothesis Honto : forall p, (p < prod (dims l))%nat -> exists idx, valid (dims l) idx /\ pos idx = p.
  Hypothesis Hout : forall idx, valid (dims l) idx -> offset (strides out) idx = Z.of_nat (pos idx) * so.
  Hypothesis Hin : forall idx, valid (dims l) idx -> offset (strides l) idx = g (pos idx).
  Hypothesis Hso : (prod (dims l) <= 1)%nat \/ so <> 0.
  Hypothesis Hap : apart l a out b.

  Lemma mul_inj p q : (p < prod (dims l))%nat -> (q < prod (dims l))%nat -> Z.of_nat p * so = Z.of_nat q * so -> p = q.
  Proof using Hso. clear - Hso. intros A B E. destruct Hso as [H|H]; [lia|]. apply Z.mul_reg_r in E; auto. lia. Qed.
  Lemma stored_ok cs m : Permutation cs (map (fun p => (Z.of_nat p * so, g p)) (seq 0 (prod (dims l)))) -> stored f l a out b m (fold_left (step f a b) cs m).
  Proof using Hd Hl Honto Hout Hin Hso Hap.
    intros P.
    assert (IN : forall c, In c cs <-> exists idx, valid (dims l) idx /\ c = (offset (strides out) idx, offset (strides l) idx)).
    { intros c. split; intros I.
      - apply (Permutation_in _ P) in I. apply in_map_iff in I as (p & <- & I). apply in_seq in I. destruct (Honto p) as (idx & W & <-); [lia|].
        exists idx. split; auto. now rewrite Hout, Hin.
      - destruct I as (idx & W & ->). apply (Permutation_in _ (Permutation_sym P)). apply in_map_iff. exists (pos idx). split; [now rewrite Hout, Hin|].
        apply in_seq. specialize (Hl idx W). lia. }
    assert (ND : NoDup (map fst cs)).
    { apply (Permutation_NoDup (Permutation_sym (Permutation_map fst P))). rewrite map_map. cbn [fst].
      apply nodup_map_in; [|apply seq_NoDup]. intros p q I J E. apply in_seq in I, J. apply mul_inj; auto; lia. }
    assert (SEP : forall c c', In c cs -> In c' cs -> a + snd c = b + fst c' -> c = c').
    { intros c c' I J E. apply IN in I as (i & W & ->), J as (j & W' & ->). cbn [fst snd] in E. destruct Hap as [D|[Eab Es]].
      - exfalso. apply (D (a + offset (strides l) i)); [now exists i|]. rewrite E. exists j. rewrite Hd. auto.
      - rewrite Es in E |- *. assert (offset (strides out) i = offset (strides out) j) as -> by lia. reflexivity. }
    destruct (steps_ok f a b cs ND SEP m) as [S1 S2]. split.
    - intros idx W. apply (S1 (offset (strides out) idx, offset (strides l) idx)). apply IN. eauto.
    - intros x N. apply S2. intros c I ->. apply IN in I as (idx & W & ->). apply N. exists idx. rewrite Hd. auto.
  Qed.
End out.

(** ** The layouts *)
Lemma dir_1d l : (length (dims l) <= 1)%nat -> GetStridesAndContig l = (0, if (1 <? nth 0 (dims l) 0)%nat then nth 0 (strides l) 0 else isz l).
Proof. intros N. unfold GetStridesAndContig. destruct (dims l) as [|d [|]]; simpl in *; try lia; reflexivity. Qed.
Lemma dir_C l : 0 < isz l -> good l -> strides l = cstrides (isz l) (dims l) -> GetStridesAndContig l = (0, isz l).
Proof. intros H [P L] E. destruct l as [ds ss z]. apply contig_C; auto. Qed.
Lemma dir_F l : 0 < isz l -> good l -> strides l = fstrides (isz l) (dims l) -> GetStridesAndContig l = (0, isz l).
Proof. intros H [P L] E. destruct l as [ds ss z]. apply contig_F; auto. Qed.
Lemma rows_dir l d0 ds S0 s : good l -> dims l = d0 :: ds -> ds <> [] -> strides l = S0 :: cstrides s ds ->
  (1 < d0)%nat -> (1 < nth (length ds - 1) ds 0)%nat \/ s = isz l -> Z.abs s < Z.abs S0 ->
  exists r, (r <= 1)%nat /\ GetStridesAndContig l = (Z.of_nat r, s) /\ (r = 0%nat -> S0 = s * Z.of_nat (prod ds)).
Proof.
  intros [P L] ED N ES H0 HL HA.
  assert (LD : (1 <= length ds)%nat) by (destruct ds; [easy|simpl; lia]).
  assert (NL : nth (length ds) (dims l) 0%nat = nth (length ds - 1) ds 0%nat) by (rewrite ED; destruct (length ds) eqn:E; [lia|]; simpl; now rewrite Nat.sub_0_r).
  assert (NS : nth (length ds) (strides l) 0 = s).
  { rewrite ES. destruct (length ds) eqn:E; [lia|]. cbn [nth]. rewrite cstrides_nth by lia. rewrite <- E, skipn_all. simpl. lia. }
  assert (LE : length (dims l) = S (length ds)) by now rewrite ED. assert (D0 : nth 0 (dims l) 0%nat = d0) by now rewrite ED. assert (S1 : nth 0 (strides l) 0 = S0) by now rewrite ES.
  unfold GetStridesAndContig. rewrite LE, Nat.sub_succ, Nat.sub_0_r, D0, S1, NL, NS.
  destruct (Nat.ltb_spec 1 d0); [|lia]. destruct (Nat.ltb_spec 1 (S (length ds))); [|lia]. cbn [Nat.eqb].
  replace (if (1 <? nth (length ds - 1) ds 0)%nat then s else isz l) with s by (destruct (Nat.ltb_spec 1 (nth (length ds - 1) ds 0%nat)), HL; auto; lia).
  destruct (Z.eqb_spec s S0); [subst; lia|]. destruct (Z.ltb_spec (Z.abs s) (Z.abs S0)); [|lia].
  exists (c_loop l (length ds) s). split; [|split; auto].
  - pose proof (c_loop_ok l s 1 (length ds)) as C. rewrite ED in C. cbn [length] in C.
    replace (skipn (S (length ds)) (d0 :: ds)) with (@nil nat) in C by (symmetry; apply (skipn_all (d0 :: ds))). cbn [prod fold_right] in C. rewrite Z.mul_1_r in C.
    apply C; try lia. intros j Hj. rewrite ES. destruct j as [|j]; [lia|]. cbn [nth skipn]. apply cstrides_nth. lia.
  - intros R. destruct (Z.eq_dec S0 (s * Z.of_nat (prod ds))); auto. exfalso.
    pose proof (c_loop_1 l (length ds) s LD) as C. rewrite ES, ED in C. cbn [nth skipn length] in C. rewrite firstn_all in C. specialize (C n0 ltac:(lia)). lia.
Qed.

Lemma out_flat {V} ord thr (f : V -> V) l a out b m si so (pos : list nat -> nat) : fair ord -> dims out = dims l -> apart l a out b ->
  GetStridesAndContig l = (0, si) -> GetStridesAndContig out = (0, so) ->
  (forall idx, valid (dims l) idx -> (pos idx < prod (dims l))%nat) -> (forall p, (p < prod (dims l))%nat -> exists idx, valid (dims l) idx /\ pos idx = p) ->
  (forall idx, valid (dims l) idx -> offset (strides out) idx = Z.of_nat (pos idx) * so) ->
  (forall idx, valid (dims l) idx -> offset (strides l) idx = Z.of_nat (pos idx) * si) -> (prod (dims l) <= 1)%nat \/ so <> 0 ->
  exists m', UnaryOut ord thr f l a out b m = Some m' /\ stored f l a out b m m'.
Proof.
  intros Ho Hd Hap E1 E2 Hl Hon H1 H2 Hso. unfold UnaryOut, unary_calls. rewrite Hd, Nat.eqb_refl, E1, E2. cbn [Z.eqb andb option_map].
  eexists. split; [reflexivity|]. apply (stored_ok f l out a b pos so (fun p => Z.of_nat p * si)); auto. rewrite flat_seq. apply Ho.
Qed.

Lemma out_ok {V} ord thr (f : V -> V) l a out b m : fair ord -> good l -> good out -> 0 < isz l -> 0 < isz out -> dims out = dims l -> matching l out -> apart l a out b ->
  exists m', UnaryOut ord thr f l a out b m = Some m' /\ stored f l a out b m m'.
Proof.
  intros Ho G G' Hz Hz' Hd M Hap. destruct M as [l out N S | l out E E' | l out E E' | l out d0 ds S0 s ED N ES H0 HL HA E'].
  - pose proof (dir_1d l N) as D. pose proof (dir_1d out ltac:(rewrite Hd; auto)) as D'. rewrite Hd in D'.
    destruct G as [P L], G' as [P' L']. rewrite Hd in L'. destruct (dims l) as [|d [|]] eqn:ED; simpl in N; try lia.
    + eapply (out_flat _ _ _ _ _ _ _ _ _ _ (fun _ => 0%nat)); eauto; rewrite ?ED; auto.
      * intros p Hp. exists []. split; [constructor|simpl in Hp; lia].
      * intros idx W. inversion W. subst. destruct (strides out); [|easy]. reflexivity.
      * intros idx W. inversion W. subst. destruct (strides l); [|easy]. reflexivity.
    + destruct (strides l) as [|x [|]] eqn:EL; try easy. destruct (strides out) as [|y [|]] eqn:EO; try easy. cbn [nth] in D, D', S.
      assert (O : forall idx z w, valid [d] idx -> offset [z] idx = Z.of_nat (nth 0 idx 0%nat) * (if (1 <? d)%nat then z else w)).
      { intros idx z w W. inversion W as [|i ? r ? Hi W']; subst. inversion W'; subst. cbn [offset nth]. destruct (Nat.ltb_spec 1 d); [lia|]. assert (i = 0%nat) by lia. subst. lia. }
      eapply (out_flat _ _ _ _ _ _ _ _ _ _ (fun idx => nth 0 idx 0%nat)); eauto; rewrite ?ED, ?EL, ?EO; auto.
      * intros idx W. inversion W as [|i ? r ? Hi W']; subst. cbn. lia.
      * intros p Hp. exists [p]. split; [repeat constructor; simpl in Hp; lia|reflexivity].
      * cbn [prod fold_right] in *. destruct (Nat.ltb_spec 1 d); lia.
  - pose proof (dir_C l Hz G E) as D. pose proof (dir_C out Hz' G' E') as D'. destruct G as [P L].
    eapply (out_flat _ _ _ _ _ _ _ _ _ _ (posC (dims l))); eauto.
    + apply posC_lt.
    + now apply posC_onto.
    + intros idx W. rewrite E', Hd. now apply offset_C.
    + intros idx W. rewrite E. now apply offset_C.
    + lia.
  - pose proof (dir_F l Hz G E) as D. pose proof (dir_F out Hz' G' E') as D'. destruct G as [P L].
    eapply (out_flat _ _ _ _ _ _ _ _ _ _ (posF (dims l))); eauto.
    + apply posF_lt.
    + now apply posF_onto.
    + intros idx W. rewrite E', Hd. now apply offset_F.
    + intros idx W. rewrite E. now apply offset_F.
    + lia.
  - destruct (rows_dir l d0 ds S0 s G ED N ES H0 HL HA) as (r & Hr & GS & R0). pose proof (dir_C out Hz' G' E') as D'. destruct G as [P L].
    assert (OFF : forall idx, valid (dims l) idx -> exists i rest, idx = i :: rest /\ valid ds rest /\ offset (strides l) idx = Z.of_nat i * S0 + Z.of_nat (posC ds rest) * s).
    { intros idx W. rewrite ED in W. inversion W as [|i d rest ds' Hi W']; subst. exists i, rest. split; auto. split; auto. rewrite ES. simpl. now rewrite (offset_C s). }
    assert (OO : forall idx, valid (dims l) idx -> offset (strides out) idx = Z.of_nat (posC (dims l) idx) * isz out) by (intros idx W; rewrite E', Hd; now apply offset_C).
    destruct r as [|r].
    + eapply (out_flat _ _ _ _ _ _ _ _ _ _ (posC (dims l))); eauto.
      * apply posC_lt.
      * now apply posC_onto.
      * intros idx W. destruct (OFF idx W) as (i & rest & -> & W' & ->). rewrite ED. simpl. rewrite (R0 eq_refl). lia.
      * lia.
    + assert (r = 0)%nat by lia. subst r. unfold UnaryOut, unary_calls. rewrite Hd, Nat.eqb_refl, GS, D'. cbn [Z.of_nat Pos.of_succ_nat Z.eqb Pos.eqb andb option_map].
      eexists. split; [reflexivity|].
      assert (PD : (0 < prod ds)%nat) by (apply prod_pos; rewrite ED in P; now inversion P).
      rewrite ED, ES. cbn [skipn nth]. rewrite rows_seq by auto.
      apply (stored_ok f l out a b (posC (dims l)) (isz out) (fun p => Z.of_nat (p / prod ds) * S0 + Z.of_nat (p mod prod ds) * s)); auto.
      * apply posC_lt.
      * now apply posC_onto.
      * intros idx W. destruct (OFF idx W) as (i & rest & -> & W' & ->). pose proof (posC_lt _ _ W'). rewrite ED. cbn [posC].
        replace ((i * prod ds + posC ds rest) / prod ds)%nat with i by (rewrite Nat.div_add_l, Nat.div_small by lia; lia).
        replace ((i * prod ds + posC ds rest) mod prod ds)%nat with (posC ds rest) by (rewrite Nat.add_comm, Nat.mod_add, Nat.mod_small by lia; lia). reflexivity.
      * lia.
      * rewrite ED. reflexivity.
Qed.
