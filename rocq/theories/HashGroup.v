(** Grouping rows with a hash table. *)
From Verif Require Import Base Mem MemLemmas Par HashModel HashTable HashSpec HashProofs HashMember.
Local Open Scope Z_scope.

(** ** Adding a row to grouped rows *)

Section Spec.
  Context {K : Type}.
  Implicit Types (rows : list (K * bool)) (k : K).

  Lemma kept_app rows x i k : kept (rows ++ [x]) i k <-> kept rows i k \/ (i = length rows /\ x = (k, true)).
  Proof.
    unfold kept. destruct (Nat.lt_ge_cases i (length rows)) as [L|L].
    - rewrite nth_error_app1 by auto. split; auto. intros [?|(? & _)]; auto. lia.
    - rewrite nth_error_app2 by auto. split.
      + intros E. right. destruct (i - length rows)%nat as [|[|]] eqn:D; cbn in E; try discriminate.
        split; [lia|congruence].
      + intros [C|(-> & ->)]; [apply nth_error_Some_lt in C; lia|]. now rewrite Nat.sub_diag.
  Qed.

  Lemma kept_lt rows i k : kept rows i k -> (i < length rows)%nat.
  Proof. apply nth_error_Some_lt. Qed.

  Lemma first_row_app rows x i k : first_row rows i k -> first_row (rows ++ [x]) i k.
  Proof.
    intros (H & F). pose proof (kept_lt _ _ _ H). split; [apply kept_app; auto|].
    intros j Hj C. apply kept_app in C as [C|(-> & _)]; [now apply (F j)|lia].
  Qed.

  Lemma nth_app_old {A} (l : list A) x i a : nth_error l i = Some a -> nth_error (l ++ [x]) i = Some a.
  Proof. intros H. rewrite nth_error_app1; auto. now apply nth_error_Some_lt in H. Qed.
  Lemma nth_app_new {A} (l : list A) x i : i = length l -> nth_error (l ++ [x]) i = Some x.
  Proof. intros ->. rewrite nth_error_app2, Nat.sub_diag by auto. reflexivity. Qed.
  Lemma nth_app_inv {A} (l : list A) x i a : nth_error (l ++ [x]) i = Some a -> nth_error l i = Some a \/ (i = length l /\ a = x).
  Proof.
    intros E. destruct (Nat.lt_ge_cases i (length l)); [rewrite nth_error_app1 in E; auto|].
    rewrite nth_error_app2 in E by auto. destruct (i - length l)%nat as [|[|]] eqn:D; cbn in E; try discriminate.
    right. split; [lia|congruence].
  Qed.

  Lemma first_row_unique rows i j k : first_row rows i k -> first_row rows j k -> i = j.
  Proof.
    intros (A & Fa) (B & Fb). destruct (Nat.lt_trichotomy i j) as [L|[L|L]]; auto; exfalso; [apply (Fb i L A)|apply (Fa j L B)].
  Qed.

  Lemma grouped_nil : grouped (@nil (K * bool)) [] [].
  Proof. split; auto; intros; try (destruct i; discriminate); try (destruct g; discriminate). Qed.

  Lemma grouped_skip rows k idx first : grouped rows idx first -> grouped (rows ++ [(k, false)]) (idx ++ [0]) first.
  Proof.
    intros [L Fl Kp Fi Or]. split.
    - rewrite !app_length. cbn. lia.
    - intros i k' E. apply nth_app_inv in E as [E|(-> & E)]; [apply nth_app_old; eauto|]. apply nth_app_new. auto.
    - intros i k' E. apply kept_app in E as [E|(_ & E)]; [|discriminate].
      destruct (Kp i k' E) as (g & r & A & B & C & D). exists g, r. repeat split; auto using nth_app_old; apply first_row_app; auto.
    - intros g r E. destruct (Fi g r E) as (i & k' & A & B & C). exists i, k'. repeat split; auto using nth_app_old; apply first_row_app; auto.
    - auto.
  Qed.

  Lemma grouped_old rows k idx first g r : grouped rows idx first -> nth_error first g = Some (Z.of_nat r) -> first_row rows r k ->
    grouped (rows ++ [(k, true)]) (idx ++ [Z.of_nat g + 1]) first.
  Proof.
    intros [L Fl Kp Fi Or] Hg Hr. split.
    - rewrite !app_length. cbn. lia.
    - intros i k' E. apply nth_app_inv in E as [E|(_ & E)]; [apply nth_app_old; eauto|discriminate].
    - intros i k' E. apply kept_app in E as [E|(-> & E)].
      + destruct (Kp i k' E) as (g' & r' & A & B & C & D). exists g', r'. repeat split; auto using nth_app_old; apply first_row_app; auto.
      + inversion E; subst k'. exists g, r. split; auto. split; [apply first_row_app; auto|]. split.
        * destruct Hr as (Hr & _). apply kept_lt in Hr. lia.
        * apply nth_app_new. auto.
    - intros g' r' E. destruct (Fi g' r' E) as (i & k' & A & B & C). exists i, k'. repeat split; auto using nth_app_old; apply first_row_app; auto.
    - auto.
  Qed.

  Lemma grouped_new rows k idx first : grouped rows idx first -> (forall j, ~ kept rows j k) ->
    grouped (rows ++ [(k, true)]) (idx ++ [Z.of_nat (length first) + 1]) (first ++ [Z.of_nat (length idx)]).
  Proof.
    intros [L Fl Kp Fi Or] Hn.
    assert (Fn : first_row (rows ++ [(k, true)]) (length rows) k).
    { split; [apply kept_app; auto|]. intros j Hj C. apply kept_app in C as [C|(-> & _)]; [now apply (Hn j)|lia]. }
    split.
    - rewrite !app_length. cbn. lia.
    - intros i k' E. apply nth_app_inv in E as [E|(_ & E)]; [apply nth_app_old; eauto|discriminate].
    - intros i k' E. apply kept_app in E as [E|(-> & E)].
      + destruct (Kp i k' E) as (g' & r' & A & B & C & D). exists g', r'. repeat split; auto using nth_app_old; apply first_row_app; auto.
      + inversion E; subst k'. exists (length first), (length rows). rewrite L. split; [apply nth_app_new; auto|]. split; auto.
        split; auto. apply nth_app_new. auto.
    - intros g' r' E. apply nth_app_inv in E as [E|(-> & ->)].
      + destruct (Fi g' r' E) as (i & k' & A & B & C). exists i, k'. repeat split; auto using nth_app_old; apply first_row_app; auto.
      + exists (length rows), k. rewrite L. repeat split; auto; try apply Fn. apply nth_app_new. auto.
    - intros g g' r r' Lg E E'. apply nth_app_inv in E' as [E'|(-> & ->)].
      + apply nth_app_inv in E as [E|(-> & ->)]; [eauto|]. apply nth_error_Some_lt in E'. lia.
      + apply nth_app_inv in E as [E|(-> & ->)]; [|lia]. destruct (Fi g r E) as (i & k' & -> & (A & _) & _).
        apply kept_lt in A. lia.
  Qed.

  (** equal numbers exactly for equal keys *)
  Lemma grouped_iff rows idx first i j x y : grouped rows idx first -> kept rows i x -> kept rows j y ->
    (nth_error idx i = nth_error idx j <-> x = y).
  Proof.
    intros [L Fl Kp Fi Or] Hi Hj. destruct (Kp i x Hi) as (g & r & A & B & _ & D), (Kp j y Hj) as (g' & r' & A' & B' & _ & D').
    rewrite D, D'. split.
    - intros E. assert (g = g') by (inversion E; lia). subst g'. assert (r = r') by (rewrite A in A'; inversion A'; lia). subst r'.
      destruct B as (B & _), B' as (B' & _). unfold kept in *. congruence.
    - intros ->. pose proof (first_row_unique _ _ _ _ B B'). subst r'.
      destruct (Nat.lt_trichotomy g g') as [X|[->|X]]; auto; exfalso.
      + specialize (Or _ _ _ _ X A A'). lia.
      + specialize (Or _ _ _ _ X A' A). lia.
  Qed.
End Spec.

(** ** The loop *)

Section Loop.
  Context {P K C : Type} (mkp : K -> Z -> Z -> P) (m : K -> P -> option bool) (getk : P -> list Z -> option Z) (H : K -> Z).
  Context (key : P -> C) (hk : C -> Z) (k2 : K -> C) (rows : list (K * bool)) (size : Z).
  Context (Hsize : 0 <= size)
          (Hinj : forall x y, k2 x = k2 y -> x = y)
          (Hkey : forall i x g, kept rows i x -> key (mkp x (Z.of_nat i) g) = k2 x)
          (HH : forall i x, kept rows i x -> H x = hk (k2 x) /\ 0 <= H x < size)
          (Hm : forall i x j y g, kept rows i x -> kept rows j y ->
                  exists b, m x (mkp y (Z.of_nat j) g) = Some b /\ (b = true <-> k2 y = k2 x))
          (Hget : forall y j g idx, nth_error idx j = Some g -> getk (mkp y (Z.of_nat j) g) idx = Some g).

  Definition gb_small : Prop := ~ fewer_than size (map fst (filter snd rows)).

  Record ginv (pre : list (K * bool)) (st : list (option P) * list Z * list Z) : Prop := {
    gi_len : Z.of_nat (length (fst (fst st))) = size;
    gi_inv : tinv key hk (fst (fst st));
    gi_grp : grouped pre (snd (fst st)) (snd st);
    gi_stored : forall p, In p (somes (fst (fst st))) -> exists g r x, nth_error (snd st) g = Some (Z.of_nat r) /\ first_row pre r x /\
                  nth_error (snd (fst st)) r = Some (Z.of_nat g + 1) /\ p = mkp x (Z.of_nat r) (Z.of_nat g + 1);
    gi_all : forall i x, kept pre i x -> exists p, In p (somes (fst (fst st))) /\ key p = k2 x
  }.

  Lemma kept_pre pre post i x : rows = pre ++ post -> kept pre i x -> kept rows i x.
  Proof. clear. intros -> E. unfold kept in *. rewrite nth_error_app1; auto. now apply nth_error_Some_lt in E. Qed.

  Lemma gb_step_ok pre x keep post st : rows = pre ++ (x, keep) :: post -> ginv pre st ->
    okt gb_small (ginv (pre ++ [(x, keep)])) (gb_step mkp m getk H st x keep).
  Proof using Hsize Hinj Hkey HH Hm Hget.
    intros Er G. destruct st as ((t & idx) & first). pose proof G as [L I Gr S A]. cbn [fst snd] in *.
    unfold gb_step. destruct keep.
    - assert (Ux : kept rows (length pre) x).
      { rewrite Er. unfold kept. rewrite nth_error_app2, Nat.sub_diag by auto. reflexivity. }
      destruct (HH _ _ Ux) as (EH & RH). rewrite EH.
      destruct (probe_inv key hk t (m x) (k2 x) I) as (r & -> & F).
      { rewrite <- EH. lia. }
      { intros p Hp. destruct (S p Hp) as (g & r & y & _ & (Hy & _) & _ & ->).
        assert (kept rows r y) by (eapply kept_pre; eauto). rewrite Hkey by auto. eapply Hm; eauto. }
      cbn [obind]. inversion F as [s p Ho Hp Ek|s Es Nk Ti|Nk Fu]; subst r.
      + destruct (S p Hp) as (g & r & y & Hg & Hr & Hi & Ep).
        assert (Ky : kept rows r y) by (destruct Hr; eapply kept_pre; eauto).
        assert (y = x). { apply Hinj. rewrite <- Ek, Ep. symmetry. now apply Hkey. } subst y.
        rewrite Ep, Hget by auto. cbn. split; cbn [fst snd]; auto.
        * eapply grouped_old; eauto.
        * intros q Hq. destruct (S q Hq) as (g' & r' & y & B1 & B2 & B3 & B4). exists g', r', y.
          split; auto. split; [now apply first_row_app|]. split; auto. now apply nth_app_old.
        * intros i y Hy. apply kept_app in Hy as [Hy|(_ & Hy)]; [eauto|]. inversion Hy; subst y. eauto.
      + cbn. assert (Hn : forall j, ~ kept pre j x).
        { intros j C'. destruct (A j x C') as (p & Hp & Ep). now apply (Nk p Hp). }
        assert (Li : length idx = length pre) by apply Gr.
        assert (Ek : key (mkp x (Z.of_nat (length idx)) (Z.of_nat (length first) + 1)) = k2 x) by (rewrite Li; now apply Hkey).
        split; cbn [fst snd].
        * now rewrite store_length.
        * apply Ti. auto.
        * now apply grouped_new.
        * intros q Hq. apply in_somes_insert in Hq as [-> |Hq]; auto.
          -- exists (length first), (length idx), x. split; [now apply nth_app_new|]. split; [|split; auto; now apply nth_app_new].
             rewrite Li. split; [apply kept_app; auto|]. intros j Hj C'. apply kept_app in C' as [C'|(-> & _)]; [now apply (Hn j)|lia].
          -- destruct (S q Hq) as (g' & r' & y & B1 & B2 & B3 & B4). exists g', r', y.
             split; [now apply nth_app_old|]. split; [now apply first_row_app|]. split; auto. now apply nth_app_old.
        * intros i y Hy. apply kept_app in Hy as [Hy|(_ & Hy)].
          -- destruct (A i y Hy) as (p & Hp & Ep). exists p. split; auto. apply in_somes_insert; auto.
          -- inversion Hy; subst y. eexists. split; [apply in_somes_insert; auto|auto].
      + cbn. intros (U & HU & HL). apply (not_full key hk t (map k2 U) I); auto.
        * intros p Hp. destruct (S p Hp) as (g & r & y & _ & (Hy & _) & _ & ->).
          assert (Ky : kept rows r y) by (eapply kept_pre; eauto). rewrite Hkey by auto. apply in_map, HU.
          apply in_map_iff. exists (y, true). split; auto. apply filter_In. split; auto. eapply nth_error_In. exact Ky.
        * rewrite map_length. lia.
    - cbn. split; cbn [fst snd]; auto.
      + now apply grouped_skip.
      + intros q Hq. destruct (S q Hq) as (g' & r' & y & B1 & B2 & B3 & B4). exists g', r', y.
        split; auto. split; [now apply first_row_app|]. split; auto. now apply nth_app_old.
      + intros i y Hy. apply kept_app in Hy as [Hy|(_ & Hy)]; [eauto|discriminate].
  Qed.

  Lemma gb_loop_ok post : forall pre st, rows = pre ++ post -> ginv pre st -> okt gb_small (ginv rows) (gb_loop mkp m getk H st post).
  Proof using Hsize Hinj Hkey HH Hm Hget.
    induction post as [|(x, keep) post IH]; intros pre st E G; cbn [gb_loop].
    - cbn. rewrite app_nil_r in E. now subst.
    - eapply okt_bind; [eapply gb_step_ok; eauto|]. intros st' G'. apply (IH (pre ++ [(x, keep)])); auto. rewrite <- app_assoc. auto.
  Qed.

  Lemma group_by_ok : okt gb_small (fun r => grouped rows (fst r) (snd r)) (group_by mkp m getk H size rows).
  Proof using Hsize Hinj Hkey HH Hm Hget.
    unfold group_by. eapply okt_bind.
    - apply (gb_loop_ok rows []); auto. split; cbn [fst snd].
      + unfold new_table. rewrite repeat_length. lia.
      + apply tinv_new.
      + apply grouped_nil.
      + intros p Hp. apply in_somes in Hp as (s & Hs). apply zrd_inv in Hs as (_ & Hs). unfold new_table in Hs.
        rewrite nth_error_repeat' in Hs. now destruct (Nat.ltb _ _).
      + intros i x E. unfold kept in E. destruct i; discriminate.
    - intros ((t & idx) & first) G. cbn. apply G.
  Qed.
End Loop.

(** ** The entry points *)

Lemma item_ok {K} (keq : K -> K -> bool) (Hkeq : forall x y, keq x y = true <-> x = y) H size rows : 0 <= size ->
  (forall i x, kept rows i x -> 0 <= H size x < size) ->
  okt (~ fewer_than size (map fst (filter snd rows))) (fun r => grouped rows (fst r) (snd r)) (group_by_item keq H size rows).
Proof.
  intros Hs HH. apply (group_by_ok (fun x _ k => (x, k)) (fun x p => Some (keq x (fst p))) (fun p _ => Some (snd p)) (H size)
                         fst (H size) (fun x => x) rows size); auto; cbn.
  - intros i x E. split; auto. eapply HH; eauto.
  - intros i x j y g _ _. exists (keq x y). split; auto. rewrite Hkeq. split; congruence.
Qed.

Lemma rows_ok {K} (keq : K -> K -> bool) (Hkeq : forall x y, keq x y = true <-> x = y) H size rows : 0 <= size ->
  (forall i x, kept rows i x -> 0 <= H size x < size) ->
  okt (~ fewer_than size (map fst (filter snd rows))) (fun r => grouped rows (fst r) (snd r)) (group_by_rows keq H size rows).
Proof.
  intros Hs HH.
  assert (KR : forall i x, kept rows i x -> zrd (map fst rows) (Z.of_nat i) = Some x).
  { intros i x E. rewrite zrd_some, Nat2Z.id by lia. unfold kept in E. rewrite nth_error_map, E. reflexivity. }
  apply (group_by_ok (fun _ i _ => i) (row_match keq (map fst rows)) (fun p idx => zrd idx p) (H size)
           (fun p => zrd (map fst rows) p) (fun o => match o with Some x => H size x | None => 0 end) Some rows size); auto.
  - congruence.
  - intros i x E. split; auto. eapply HH; eauto.
  - intros i x j y g _ Ej. unfold row_match. rewrite (KR j y Ej). cbn. exists (keq x y). split; auto. rewrite Hkeq. split; congruence.
  - intros y j g idx E. rewrite zrd_some, Nat2Z.id by lia. auto.
Qed.

(** Items of 1 and 2 bytes: the same as with the values stored, if each value has its own position. *)
Section PerfectGroup.
  Context (size : Z).
  Definition strip (t : list (option (Z * Z))) : list (option Z) := map (option_map snd) t.

  Lemma strip_new : strip (new_table size) = new_table size.
  Proof. unfold strip, new_table. induction (Z.to_nat size); cbn; congruence. Qed.

  Lemma strip_zrd t s : zrd (strip t) s = option_map (option_map snd) (zrd t s).
  Proof.
    unfold zrd, strip. destruct (0 <=? s); auto. apply nth_error_map.
  Qed.

  Lemma strip_store t s p : strip (store t s p) = store (strip t) s (snd p).
  Proof. unfold store, strip. now rewrite map_upd. Qed.

  Lemma strip_length t : length (strip t) = length t.
  Proof. apply map_length. Qed.

  Lemma perfect_gb rows : (forall i x, kept rows i x -> 0 <= x < size /\ mask_hash size x = x) ->
    forall t idx first, perfect size t ->
    exists t' idx' first', perfect size t' /\
      gb_loop (fun x _ k => (x, k)) (fun x p => Some (x =? fst p)) (fun p _ => Some (snd p)) (mask_hash size) (t, idx, first) rows = Ret (t', idx', first') /\
      gb_loop (fun _ _ k => k) (fun _ _ => Some true) (fun p _ => Some p) (mask_hash size) (strip t, idx, first) rows = Ret (strip t', idx', first').
  Proof.
    induction rows as [|(x, keep) rows IH]; intros HR t idx first Pt; [exists t, idx, first; auto|].
    assert (HR' : forall i y, kept rows i y -> 0 <= y < size /\ mask_hash size y = y) by (intros i y E; apply (HR (S i) y E)).
    cbn [gb_loop gb_step]. destruct keep; [|cbn [obind]; now apply IH].
    destruct (HR O x eq_refl) as (Rx & ->). destruct Pt as (L & Hp).
    unfold probe. rewrite strip_length. destruct (length t) as [|f] eqn:El; [lia|].
    destruct (nth_error_lt t (Z.to_nat x)) as (s & Es); [lia|].
    assert (E : zrd t x = Some s) by (rewrite zrd_some by lia; exact Es).
    cbn [probe_loop]. rewrite strip_zrd, E. cbn [option_map lift obind]. destruct s as [p|]; cbn [option_map lift obind].
    - rewrite (Hp _ _ E), Z.eqb_refl. cbn [obind lift]. apply IH; auto. split; [lia|auto].
    - pose proof (strip_store t x (x, Z.of_nat (length first) + 1)) as Est. cbn [snd] in Est. rewrite <- Est. apply IH; auto. split; [rewrite store_length; lia|].
      intros s q Hq. apply store_occ in Hq as [(-> & ->)|(_ & Hq)]; [reflexivity|now apply Hp|lia].
  Qed.

  Lemma perfect_ok rows : 0 < size -> (forall i x, kept rows i x -> 0 <= x < size /\ mask_hash size x = x) ->
    exists idx first, group_by_perfect size rows = Ret (idx, first) /\ grouped rows idx first.
  Proof.
    intros Hs HR. destruct (perfect_gb rows HR (new_table size) [] []) as (t & idx & first & _ & E1 & E2).
    { apply perfect_new. lia. }
    exists idx, first. unfold group_by_perfect, group_by. rewrite strip_new in E2. rewrite E2. split; auto.
    pose proof (item_ok Z.eqb Z.eqb_eq mask_hash size rows) as X. unfold group_by_item, group_by in X. rewrite E1 in X. cbn in X.
    apply X; [lia|]. intros i x E. destruct (HR i x E) as (A & ->). auto.
  Qed.
End PerfectGroup.

Lemma mask_own k x : 0 <= k -> 0 <= x < 2 ^ k -> mask_hash (2 ^ k) x = x.
Proof.
  intros Hk Hx. unfold mask_hash. rewrite Z.sub_1_r, <- Z.ones_equiv, Z.land_ones by auto. now apply Z.mod_small.
Qed.

(** the rows kept by the filter come from the keys *)
Lemma kept_filter {K} (keys : list K) filt i x : kept (with_filter keys filt) i x -> In x keys.
Proof.
  unfold kept, with_filter. intros E. apply nth_error_In in E. destruct filt as [f|].
  - now apply in_combine_l in E.
  - apply in_map_iff in E as (y & Ey & Hy). congruence.
Qed.


Lemma GroupByInternal_ok crc kt mode hint keys filt :
  entries hint (Z.of_nat (length keys)) < 68719476731 -> bits (width kt) keys ->
  (kt = Item1 \/ kt = Item2 -> mode = MASK) ->
  okt (~ fewer_than (AllocMemory mode false (entries hint (Z.of_nat (length keys)))) keys)
      (fun r => grouped (with_filter keys filt) (fst r) (snd r)) (GroupByInternal crc kt mode hint keys filt).
Proof.
  intros Hn Hb Hm. pose proof (alloc_pos mode false _ Hn) as Hs.
  assert (TT : forall n, ~ fewer_than n (map fst (filter snd (with_filter keys filt))) -> ~ fewer_than n keys).
  { intros n T C. apply T. eapply fewer_incl; [|exact C]. intros x Hx. apply in_map_iff in Hx as ((y, b) & <- & Hy).
    apply filter_In in Hy as (Hy & Eb). cbn in Eb. subst b. apply In_nth_error in Hy as (i & Hi).
    apply (kept_filter keys filt i y Hi). }
  assert (IT : forall H, (forall size x, 0 < size -> 0 <= H size x < size) ->
    okt (~ fewer_than (AllocMemory mode false (entries hint (Z.of_nat (length keys)))) keys)
      (fun r => grouped (with_filter keys filt) (fst r) (snd r))
      (group_by_item Z.eqb H (AllocMemory mode false (entries hint (Z.of_nat (length keys)))) (with_filter keys filt))).
  { intros H HH. eapply okt_weaken; [apply item_ok|apply TT|]; auto; [apply Z.eqb_eq|lia]. }
  assert (PF : forall n, AllocMemory MASK false n = 65536 -> (forall x, In x keys -> 0 <= x < 65536) ->
    okt (~ fewer_than (AllocMemory mode false (entries hint (Z.of_nat (length keys)))) keys)
      (fun r => grouped (with_filter keys filt) (fst r) (snd r))
      (group_by_perfect (AllocMemory MASK false n) (with_filter keys filt))).
  { intros n -> HX. destruct (perfect_ok 65536 (with_filter keys filt)) as (idx & first & -> & G); auto; [lia|].
    intros i x E. apply kept_filter in E. split; auto. apply (mask_own 16); [lia|]. apply HX. auto. }
  destruct kt; cbn [GroupByInternal]; try (apply IT; intros; now apply mask_range).
  - rewrite (Hm (or_introl eq_refl)) in *. apply PF; [vm_compute; reflexivity|]. intros x Hx. specialize (Hb x Hx). change (2 ^ width Item1) with 256 in Hb. lia.
  - rewrite (Hm (or_intror eq_refl)) in *. apply PF; [vm_compute; reflexivity|]. intros x Hx. specialize (Hb x Hx). change (2 ^ width Item2) with 65536 in Hb. lia.
Qed.

Lemma GroupByInternal_rows_ok crc mode hint keys filt : entries hint (Z.of_nat (length keys)) < 68719476731 ->
  okt (~ fewer_than (AllocMemory mode false (entries hint (Z.of_nat (length keys)))) keys)
      (fun r => grouped (with_filter keys filt) (fst r) (snd r)) (GroupByInternal_rows crc mode hint keys filt).
Proof.
  intros Hn. pose proof (alloc_pos mode false _ Hn) as Hs. eapply okt_weaken; [apply rows_ok|..]; auto using bytes_eqb_eq.
  - lia.
  - intros i x _. unfold row_hash. now apply mask_range.
  - intros T C. apply T. eapply fewer_incl; [|exact C]. intros x Hx. apply in_map_iff in Hx as ((y, b) & <- & Hy).
    apply filter_In in Hy as (Hy & Eb). cbn in Eb. subst b. apply In_nth_error in Hy as (i & Hi).
    apply (kept_filter keys filt i y Hi).
Qed.

(** ** Partitions *)

Lemma slice_part {A} (l : list A) a b : 0 <= a -> b <= Z.of_nat (length l) -> slice l a b = Some (part a b l).
Proof. intros Ha Hb. unfold slice, part. rewrite (proj2 (Z.leb_le _ _) Ha), (proj2 (Z.leb_le _ _) Hb). reflexivity. Qed.

Lemma part_length {A} (l : list A) a b : 0 <= a <= b -> b <= Z.of_nat (length l) -> Z.of_nat (length (part a b l)) = b - a.
Proof. intros Ha Hb. unfold part. rewrite firstn_length, skipn_length. lia. Qed.

Lemma part_incl {A} (l : list A) a b : incl (part a b l) l.
Proof. intros x Hx. unfold part in Hx.
  rewrite <- (firstn_skipn (Z.to_nat a) l). apply in_or_app. right.
  rewrite <- (firstn_skipn (Z.to_nat (b - a)) (skipn (Z.to_nat a) l)). apply in_or_app. now left. Qed.

Lemma combine_skipn {A B} n : forall (l : list A) (r : list B), skipn n (combine l r) = combine (skipn n l) (skipn n r).
Proof. induction n as [|n IH]; intros [|x l] [|y r]; cbn; auto. now rewrite combine_nil. Qed.
Lemma combine_firstn' {A B} n : forall (l : list A) (r : list B), firstn n (combine l r) = combine (firstn n l) (firstn n r).
Proof. induction n as [|n IH]; intros [|x l] [|y r]; cbn; auto. now rewrite IH. Qed.

Lemma part_filter {K} a b (keys : list K) filt :
  with_filter (part a b keys) (option_map (part a b) filt) = part a b (with_filter keys filt).
Proof.
  unfold part, with_filter. destruct filt as [f|]; cbn [option_map].
  - now rewrite combine_skipn, combine_firstn'.
  - now rewrite skipn_map, firstn_map.
Qed.

Lemma cuts_le cut : forall a n, cuts a cut n -> a <= n.
Proof. induction cut as [|c cut IH]; cbn; intros a n H; [lia|]. destruct H as (L & H). specialize (IH _ _ H). lia. Qed.

Lemma cuts_in cut : forall a n p, cuts a cut n -> In p (combine (a :: cut) cut) -> a <= fst p <= snd p /\ snd p <= n.
Proof.
  induction cut as [|c cut IH]; intros a n p H Hp; [destruct Hp|]. destruct H as (L & H). pose proof (cuts_le _ _ _ H).
  destruct Hp as [<-|Hp]; cbn [fst snd]; [lia|]. specialize (IH c n p H Hp). lia.
Qed.

Lemma parts_enum cut : forall a n (parts : list (list Z * list Z)), cuts a cut n ->
  Forall2 (fun p r => Z.of_nat (length (fst r)) = snd p - fst p) (combine (a :: cut) cut) parts ->
  concat (map (fun r => enum 1 (fst r) (fst (snd r))) (combine (map fst (combine (a :: cut) cut)) parts)) = enum 1 a (concat (map fst parts)).
Proof.
  induction cut as [|c cut IH]; intros a n parts H F.
  - cbn in F. inversion F. reflexivity.
  - destruct H as (L & H). cbn [combine] in F. inversion F as [|? r ? parts' Lr F']; subst. cbn [combine map concat fst snd] in *.
    rewrite enum_app. f_equal. replace (a + 1 * Z.of_nat (length (fst r))) with c by lia. apply (IH c n); auto.
Qed.

Lemma cumsum_length l : forall a, length (cumsum a l) = length l.
Proof. induction l; cbn; auto. Qed.

Lemma cumsum_nth (parts : list (list Z * list Z)) : forall a q c,
  nth_error (cumsum a (map (fun r => Z.of_nat (length (snd r))) parts)) q = Some c ->
  c = a + Z.of_nat (length (concat (map snd (firstn (S q) parts)))).
Proof.
  induction parts as [|r parts IH]; intros a q c E; [destruct q; discriminate|]. cbn [map cumsum] in E.
  destruct q as [|q]; cbn [nth_error] in E.
  - inversion E. cbn. rewrite app_nil_r. lia.
  - apply IH in E. change (firstn (S (S q)) (r :: parts)) with (r :: firstn (S q) parts). cbn [map concat]. rewrite app_length. lia.
Qed.

Section Partitioned.
  Context {K : Type} (gb : list K -> option (list bool) -> out (list Z * list Z)) (T : Prop).
  Context (cut : list Z) (keys : list K) (filt : option (list bool)).
  Context (Hf : forall f, filt = Some f -> length f = length keys) (Hc : cuts 0 cut (Z.of_nat (length keys))).
  Context (Hgb : forall p, In p (combine (0 :: cut) cut) ->
    okt T (fun r => grouped (part (fst p) (snd p) (with_filter keys filt)) (fst r) (snd r)) (gb (part (fst p) (snd p) keys) (option_map (part (fst p) (snd p)) filt))).

  Lemma partitioned_ok ord : fair ord ->
    okt T (fun r => grouped_parts cut (with_filter keys filt) (fst (fst r)) (snd (fst r)) (snd r)) (GroupByPartitioned gb ord cut keys filt).
  Proof using Hf Hc Hgb.
    intros Ho. unfold GroupByPartitioned. eapply okt_bind.
    - apply all_ret_ok with (Q := fun p r => fst r = fst p /\ grouped (part (fst p) (snd p) (with_filter keys filt)) (fst (snd r)) (snd (snd r))).
      intros p Hp. pose proof (cuts_in _ _ _ p Hc Hp) as R.
      rewrite slice_part by lia. cbn [lift obind].
      assert (E : (match filt with None => Ret None | Some f => let! g := lift (slice f (fst p) (snd p)) in Ret (Some g) end)
                  = Ret (option_map (part (fst p) (snd p)) filt)).
      { destruct filt as [f|]; auto. rewrite (slice_part f) by (rewrite ?(Hf f eq_refl); lia). reflexivity. }
      rewrite E. cbn [obind]. eapply okt_bind; [apply (Hgb p Hp)|]. intros r G. cbn. auto.
    - intros rs F.
      assert (Lw : forall p, In p (combine (0 :: cut) cut) -> Z.of_nat (length (part (fst p) (snd p) (with_filter keys filt))) = snd p - fst p).
      { intros p Hp. pose proof (cuts_in _ _ _ p Hc Hp) as R. apply part_length; [lia|].
        assert (length (with_filter keys filt) = length keys).
        { unfold with_filter. destruct filt as [f|]; [rewrite combine_length, (Hf f) by auto; lia|apply map_length]. }
        lia. }
      assert (E1 : rs = combine (map fst (combine (0 :: cut) cut)) (map snd rs)).
      { unfold partitions in F. clear -F. revert F. generalize (combine (0 :: cut) cut). intros l F.
        induction F as [|p (a, r) l rs (E & _) F IH]; cbn; auto. cbn in E. rewrite <- E. f_equal. auto. }
      assert (F2 : Forall2 (fun p r => grouped (part (fst p) (snd p) (with_filter keys filt)) (fst r) (snd r)) (combine (0 :: cut) cut) (map snd rs)).
      { unfold partitions in F. clear -F. induction F as [|p (a, r) l rs (_ & G) F IH]; cbn; constructor; auto. }
      assert (F3 : Forall2 (fun p r => Z.of_nat (length (fst r)) = snd p - fst p) (combine (0 :: cut) cut) (map snd rs)).
      { revert F2. apply Forall2_impl_in. intros p r Hp G. rewrite <- (Lw p Hp). f_equal. apply G. }
      assert (EW : concat (map (fun r : Z * (list Z * list Z) => enum 1 (fst r) (fst (snd r))) rs) = enum 1 0 (concat (map fst (map snd rs)))).
      { rewrite E1 at 1. apply (parts_enum cut 0 (Z.of_nat (length keys))); auto. }
      assert (LC : length (concat (map fst (map snd rs))) = length keys).
      { clear -F3 Hc. revert F3 Hc. generalize (map snd rs). intros parts F3 Hc.
        assert (X : forall cut a n parts, cuts a cut n -> Forall2 (fun p r => Z.of_nat (length (fst r)) = snd p - fst p) (combine (a :: cut) cut) parts ->
                    Z.of_nat (length (concat (map (@fst (list Z) (list Z)) parts))) = n - a).
        { clear. intros cut0. induction cut0 as [|c cut0 IH]; intros a n parts H F.
          - cbn in F, H. inversion F. subst. cbn. lia.
          - destruct H as (L & H). cbn [combine] in F. inversion F as [|? r ? parts' Lr F']; subst. cbn [map concat fst snd] in *.
            rewrite app_length. specialize (IH c n parts' H F'). lia. }
        specialize (X _ _ _ _ Hc F3). lia. }
      rewrite EW, (writes_enum _ (concat (map fst (map snd rs)))); [|apply Ho|rewrite repeat_length; auto].
      cbn. exists (map snd rs). split; auto. split; auto. split; [now rewrite map_map|]. split.
      + rewrite cumsum_length, map_length. clear -F3. apply Forall2_len in F3. rewrite map_length, combine_length in F3. change (length (0 :: cut)) with (S (length cut)) in F3. lia.
      + intros q c E. rewrite <- map_map with (f := snd) (g := fun r : list Z * list Z => Z.of_nat (length (snd r))) in E. apply cumsum_nth in E. lia.
  Qed.
End Partitioned.

Lemma hint_entries hint n : 0 <= hint -> 0 <= n -> hint < 68719476731 -> n < 68719476731 -> entries hint n < 68719476731.
Proof. intros. unfold entries. destruct (hint =? 0); lia. Qed.

Lemma part_small {K} mode hint (keys : list K) a b : Z.of_nat (length keys) < 68719476731 ->
  ~ fewer_than (AllocMemory mode false (entries hint (Z.of_nat (length (part a b keys))))) (part a b keys) ->
  hint <> 0 /\ ~ fewer_than (AllocMemory mode false hint) keys.
Proof.
  intros Hn T. destruct (Z.eq_dec hint 0) as [->|Hh].
  - exfalso. apply T. apply fewer_default. unfold part. rewrite firstn_length, skipn_length. lia.
  - split; auto. intros C. apply T. unfold entries. rewrite (proj2 (Z.eqb_neq _ _) Hh).
    eapply fewer_incl; [apply part_incl|exact C].
Qed.

Lemma GroupByPartitioned_ok crc kt mode hint ord cut keys filt : fair ord -> 0 <= hint < 68719476731 ->
  Z.of_nat (length keys) < 68719476731 -> bits (width kt) keys -> (kt = Item1 \/ kt = Item2 -> mode = MASK) ->
  (forall f, filt = Some f -> length f = length keys) -> cuts 0 cut (Z.of_nat (length keys)) ->
  okt (hint <> 0 /\ ~ fewer_than (AllocMemory mode false hint) keys)
      (fun r => grouped_parts cut (with_filter keys filt) (fst (fst r)) (snd (fst r)) (snd r))
      (GroupByPartitioned (GroupByInternal crc kt mode hint) ord cut keys filt).
Proof.
  intros Ho Hh Hn Hb Hm Hf Hc. apply partitioned_ok; auto. intros p Hp. rewrite <- part_filter.
  eapply okt_weaken; [apply GroupByInternal_ok|intros T; eapply part_small; eauto|auto]; auto.
  - apply hint_entries; try lia. unfold part. rewrite firstn_length, skipn_length. lia.
  - intros x Hx. apply Hb. eapply part_incl; eauto.
Qed.

Lemma GroupByPartitioned_rows_ok crc mode hint ord cut keys filt : fair ord -> 0 <= hint < 68719476731 ->
  Z.of_nat (length keys) < 68719476731 ->
  (forall f, filt = Some f -> length f = length keys) -> cuts 0 cut (Z.of_nat (length keys)) ->
  okt (hint <> 0 /\ ~ fewer_than (AllocMemory mode false hint) keys)
      (fun r => grouped_parts cut (with_filter keys filt) (fst (fst r)) (snd (fst r)) (snd r))
      (GroupByPartitioned (GroupByInternal_rows crc mode hint) ord cut keys filt).
Proof.
  intros Ho Hh Hn Hf Hc. apply partitioned_ok; auto. intros p Hp. rewrite <- part_filter.
  eapply okt_weaken; [apply GroupByInternal_rows_ok|intros T; eapply part_small; eauto|auto]; auto.
  apply hint_entries; try lia. unfold part. rewrite firstn_length, skipn_length. lia.
Qed.
