From Verif Require Import Base Mem MemLemmas OutModel OutSpec.
Local Open Scope Z_scope.

(** ** Memory *)
Lemma write_in m a l x k : x = a + Z.of_nat k -> (k < length l)%nat -> write m a l x = nth k l 0.
Proof.
  intros -> K. unfold write. replace (a + Z.of_nat k - a) with (Z.of_nat k) by lia. rewrite zrd_some, Nat2Z.id by lia.
  destruct (nth_error l k) as [v|] eqn:E; [symmetry; now apply nth_error_nth|]. apply nth_error_None in E. lia.
Qed.
Lemma write_out m a l x : x < a \/ a + Z.of_nat (length l) <= x -> write m a l x = m x.
Proof. intros H. unfold write. destruct (zrd l (x - a)) as [v|] eqn:E; [|reflexivity]. apply zrd_inv in E as [B _]. lia. Qed.
Lemma bytes_ext m m' a n : (forall x, a <= x < a + n -> m x = m' x) -> bytes_at m a n = bytes_at m' a n.
Proof. intros H. unfold bytes_at. apply map_ext_in. intros k I. apply in_seq in I. apply H. lia. Qed.
Lemma bytes_list m a l : (forall k, (k < length l)%nat -> m (a + Z.of_nat k) = nth k l 0) -> bytes_at m a (Z.of_nat (length l)) = l.
Proof.
  intros H. unfold bytes_at. rewrite Nat2Z.id. apply (nth_ext _ _ 0 0); rewrite map_length, seq_length; [reflexivity|].
  intros k K. rewrite (nth_indep _ 0 (m (a + Z.of_nat 0))) by now rewrite map_length, seq_length. rewrite (map_nth (fun k => m (a + Z.of_nat k))), seq_nth by assumption. now apply H.
Qed.

Lemma chunk_eqb_eq c d : chunk_eqb c d = true <-> c = d.
Proof. unfold chunk_eqb. rewrite andb_true_iff, !Nat.eqb_eq. destruct c, d. cbn. split; [intros [-> ->]; reflexivity|intros E; injection E; auto]. Qed.
Lemma in_loads c es : In c (loads es) <-> In (Load c) es.
Proof.
  unfold loads. rewrite in_concat. split.
  - intros (l & I & J). apply in_map_iff in I as (e & <- & I). destruct e; cbn in J; [destruct J as [->|[]]; assumption|destruct J].
  - intros I. exists [c]. split; [|now left]. apply in_map_iff. now exists (Load c).
Qed.
Lemma in_stores c es : In c (stores es) <-> In (Store c) es.
Proof.
  unfold stores. rewrite in_concat. split.
  - intros (l & I & J). apply in_map_iff in I as (e & <- & I). destruct e; cbn in J; [destruct J|destruct J as [->|[]]; assumption].
  - intros I. exists [c]. split; [|now left]. apply in_map_iff. now exists (Store c).
Qed.
Lemma loads_app p q : loads (p ++ q) = loads p ++ loads q. Proof. unfold loads. now rewrite map_app, concat_app. Qed.

Section Run.
  Variables (f : list Z -> list Z -> list Z) (out : view) (a b : operand) (m0 : memory) (n : nat).
  Hypothesis (Wf : forall x y, Z.of_nat (length (f x y)) = isz out) (So : 0 < isz out).
  Hypothesis (Ok : CheckOutputs out a b = true) (Fa : fits_out n out a) (Fb : fits_out n out b).
  Let res i := f (item m0 a i) (item m0 b i).
  Let addr (i : nat) := base out + isz out * Z.of_nat i.
  (* the items in [S] have been stored *)
  Definition mem_ok (S : list nat) (m : memory) : Prop :=
    (forall i k, In i S -> (k < length (res i))%nat -> m (addr i + Z.of_nat k) = nth k (res i) 0)
    /\ (forall x, (forall i, In i S -> ~ addr i <= x < addr i + isz out) -> m x = m0 x).
  Definition stored (es : list event) : list nat := concat (map items (stores es)).

  Lemma addr_apart i j x : addr i <= x < addr i + isz out -> addr j <= x < addr j + isz out -> i = j.
  Proof. unfold addr. intros A B. nia. Qed.

  Lemma safe_one o m S i : (match o with Ram v => (cnt v <= cnt out)%nat /\ overlap out v = false | Reg _ => True end) -> fits_out n out o ->
    mem_ok S m -> (forall j, In j S -> (j < n)%nat) -> (i < n)%nat -> ~ In i S -> item m o i = item m0 o i.
  Proof.
    intros Ov F [_ U] B I N. destruct o as [l|v]; [reflexivity|]. destruct Ov as [Lg Ov], F as [Cn Sz]. cbn [item]. apply bytes_ext. intros x X. apply U. intros j J X'.
    pose proof (B j J) as Bj. unfold overlap, after in Ov. unfold addr in X'.
    assert (n > 0)%nat by lia. rewrite andb_false_iff, orb_false_iff, !andb_false_iff in Ov.
    destruct (Z.eq_dec (base v) (base out)) as [E|E].
    - destruct (Z.eq_dec (isz v) (isz out)) as [E2|E2].
      + apply N. replace i with j; [assumption|]. apply (addr_apart j i x); unfold addr; rewrite <- ?E, <- ?E2 in *; lia.
      + assert (isz v * Z.of_nat (cnt v) < isz out * Z.of_nat (cnt out)) by nia. assert (0 < isz v * Z.of_nat (cnt v)) by nia. lia.
    - assert (isz v * Z.of_nat (cnt v) <= isz out * Z.of_nat (cnt out)) by nia.
      assert (base v <= x < base v + isz v * Z.of_nat (cnt v)) by nia. assert (base out <= x < base out + isz out * Z.of_nat (cnt out)) by nia. nia.
  Qed.
  Lemma outs o : o = a \/ o = b -> match o with Ram v => (cnt v <= cnt out)%nat /\ overlap out v = false | Reg _ => True end.
  Proof.
    intros H. unfold CheckOutputs in Ok. apply andb_prop in Ok as [O1 O2]. apply andb_prop in O1 as [L1 L2]. apply andb_prop in O2 as [S1 S2].
    destruct H as [-> | ->]; [destruct a|destruct b]; auto; split; first [now apply Nat.leb_le | now apply negb_true_iff].
  Qed.

  Lemma store_ok m S ns : mem_ok S m ->
    mem_ok (ns ++ S) (fold_left (fun m p => write m (base out + isz out * Z.of_nat (fst p)) (snd p)) (combine ns (map res ns)) m).
  Proof.
    revert S m. induction ns as [|i ns IH]; intros S m M; [exact M|]. cbn [map combine fold_left fst snd].
    fold (addr i). assert (M' : mem_ok (i :: S) (write m (addr i) (res i))).
    { destruct M as [M1 M2]. split.
      - intros j k J K. pose proof (Wf (item m0 a i) (item m0 b i)) as Wi. pose proof (Wf (item m0 a j) (item m0 b j)) as Wj. fold (res i) in Wi. fold (res j) in Wj.
        destruct (Nat.eq_dec j i) as [->|N]; [now apply write_in|]. destruct J as [J|J]; [congruence|].
        rewrite write_out; [now apply M1|]. destruct (Z_lt_le_dec (addr j + Z.of_nat k) (addr i)); [now left|]. right.
        destruct (Z_le_gt_dec (addr i + Z.of_nat (length (res i))) (addr j + Z.of_nat k)); [assumption|]. exfalso. apply N. apply (addr_apart j i (addr j + Z.of_nat k)); lia.
      - intros x X. pose proof (Wf (item m0 a i) (item m0 b i)) as Wi. fold (res i) in Wi. rewrite write_out; [apply M2; intros j J; apply X; now right|].
        specialize (X i (or_introl eq_refl)). lia. }
    specialize (IH (i :: S) _ M'). destruct IH as [A B]. split.
    - intros j k J. apply A. apply in_app_iff in J as [J|J]; apply in_app_iff; cbn in *; tauto.
    - intros x X. apply B. intros j J. apply X. apply in_app_iff in J as [J|J]; cbn in *; [right; apply in_app_iff; tauto|]. destruct J as [->|J]; [now left|right; apply in_app_iff; tauto].
  Qed.

  Lemma run_prefix es : schedule n es -> forall p q, es = p ++ q ->
    let s := fold_left (step f out a b) p (m0, []) in
    mem_ok (stored p) (fst s) /\ forall c, In (Load c) p -> held (snd s) c = map res (items c).
  Proof.
    intros (Pn & Pls & Ord) p. induction p as [|e p IH] using rev_ind; intros q E.
    - cbn. split; [|intros c []]. split; [intros i k []|reflexivity].
    - rewrite <- app_assoc in E. cbn [app] in E. specialize (IH (e :: q) E). cbv zeta in *. rewrite fold_left_app. cbn [fold_left].
      destruct (fold_left (step f out a b) p (m0, [])) as [m r]. cbn [fst snd] in IH. destruct IH as [M H].
      assert (Sb : forall j, In j (stored p) -> (j < n)%nat).
      { intros j J. unfold stored in J. apply in_concat in J as (l & L & J). apply in_map_iff in L as (c & <- & L). apply in_stores in L.
        assert (X : In j (concat (map items (loads es)))).
        { apply in_concat. exists (items c). split; [|assumption]. apply in_map. apply (Permutation_in c (Permutation_sym Pls)). apply in_stores. rewrite E. apply in_app_iff. now left. }
        apply (Permutation_in j Pn) in X. apply in_seq in X. lia. }
      destruct e as [c|c]; cbn [step fst snd].
      + split.
        * replace (stored (p ++ [Load c])) with (stored p); [assumption|]. unfold stored, stores. rewrite map_app, concat_app. cbn. now rewrite app_nil_r.
        * assert (Ic : forall i, In i (items c) -> (i < n)%nat /\ ~ In i (stored p)).
          { intros i I. split.
            - assert (X : In i (concat (map items (loads es)))) by (apply in_concat; exists (items c); split; [apply in_map, in_loads; rewrite E; apply in_app_iff; right; now left|assumption]).
              apply (Permutation_in i Pn) in X. apply in_seq in X. lia.
            - intros J. unfold stored in J. apply in_concat in J as (l & L & J). apply in_map_iff in L as (c' & <- & L). apply in_stores in L.
              apply in_split in L as (p1 & p2 & Ep). assert (Ld : In (Load c') p1) by (apply (Ord p1 c' (p2 ++ Load c :: q)); rewrite E, Ep, <- app_assoc; reflexivity).
              assert (ND : NoDup (concat (map items (loads es)))) by (eapply Permutation_NoDup; [apply Permutation_sym, Pn|apply seq_NoDup]).
              rewrite E, loads_app, map_app, concat_app in ND. 
              assert (X1 : In i (concat (map items (loads p)))).
              { apply in_concat. exists (items c'). split; [|assumption]. apply in_map, in_loads. rewrite Ep. apply in_app_iff. now left. }
              assert (X2 : In i (concat (map items (loads (Load c :: q))))).
              { apply in_concat. exists (items c). split; [|assumption]. apply in_map, in_loads. now left. }
              clear -ND X1 X2. induction (concat (map items (loads p))) as [|y l IHl]; [destruct X1|]. cbn in ND. inversion ND as [|? ? N1 N2]; subst.
              destruct X1 as [->|X1]; [apply N1, in_app_iff; now right|]. now apply IHl. }
          assert (V : map (fun i => f (item m a i) (item m b i)) (items c) = map res (items c)).
          { apply map_ext_in. intros i I. destruct (Ic i I) as [I1 I2]. unfold res. rewrite (safe_one a m (stored p) i), (safe_one b m (stored p) i); first [reflexivity | assumption | apply outs; tauto]. }
          intros d D. cbn [held]. destruct (chunk_eqb d c) eqn:Q; [apply chunk_eqb_eq in Q; subst d; exact V|].
          apply in_app_iff in D as [D|[D|[]]]; [now apply H|]. injection D as ->. exfalso. assert (chunk_eqb d d = true) by now apply chunk_eqb_eq. congruence.
      + assert (Ld : In (Load c) p) by now apply (Ord p c q). split.
        * rewrite (H c Ld). assert (SP : stored (p ++ [Store c]) = stored p ++ items c).
          { unfold stored, stores. rewrite !map_app, !concat_app, map_app, concat_app. cbn. now rewrite !app_nil_r. }
          rewrite SP. pose proof (store_ok m (stored p) (items c) M) as [A B]. split.
          -- intros i k I. apply A. rewrite in_app_iff in *. tauto.
          -- intros x X. apply B. intros i I. apply X. rewrite in_app_iff in *. tauto.
        * intros d D. apply H. apply in_app_iff in D as [D|[D|[]]]; [assumption|discriminate].
  Qed.
  Lemma run_ok es : schedule n es ->
    (forall i, (i < n)%nat -> bytes_at (run f out a b m0 es) (addr i) (isz out) = res i)
    /\ (forall x, x < base out \/ base out + isz out * Z.of_nat n <= x -> run f out a b m0 es x = m0 x).
  Proof.
    intros S. pose proof S as (Pn & Pls & Ord). destruct (run_prefix es S es [] (eq_sym (app_nil_r es))) as [[A B] _]. unfold run.
    assert (St : Permutation (stored es) (seq 0 n)).
    { unfold stored. rewrite <- Pn. apply Permutation_sym. clear -Pls. induction Pls; cbn; [constructor|now apply Permutation_app_head| |now transitivity (concat (map items l'))].
      rewrite !app_assoc. apply Permutation_app_tail, Permutation_app_comm. }
    split.
    - intros i I. rewrite <- (Wf (item m0 a i) (item m0 b i)). apply bytes_list. intros k K. apply A; [|exact K].
      apply (Permutation_in i (Permutation_sym St)). apply in_seq. lia.
    - intros x X. apply B. intros i I. apply (Permutation_in i St) in I. apply in_seq in I. unfold addr. nia.
  Qed.
End Run.
