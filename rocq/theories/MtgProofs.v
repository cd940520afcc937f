(** Proofs about the graph of nodes that fills the hash maps. *)
From Verif Require Import Base Mem MemLemmas Inter HashModel HashSpec MtgModel MtgSpec.
Local Open Scope Z_scope.

Lemma all_some_ok {A B} (f : A -> option B) (g : A -> B) l : (forall x, In x l -> f x = Some (g x)) -> all_some (map f l) = Some (map g l).
Proof. induction l as [|x l IH]; intros H; cbn; [reflexivity|]. rewrite H by now left. rewrite IH by (intros; apply H; now right). reflexivity. Qed.
Lemma all_some_none {A B} (f : A -> option B) l x : In x l -> f x = None -> all_some (map f l) = None.
Proof. induction l as [|y l IH]; intros I E; [destruct I|]. cbn. destruct I as [-> | I]; [now rewrite E|]. rewrite IH by assumption. now destruct (f y). Qed.
Lemma all_some_nth {A} (l : list (option A)) r : all_some l = Some r -> l = map Some r.
Proof. revert r. induction l as [|x l IH]; intros r E; cbn in E; [injection E as <-; reflexivity|]. destruct x as [a|]; [|discriminate]. destruct (all_some l) as [t|]; [|discriminate]. injection E as <-. cbn. f_equal. now apply IH. Qed.

Lemma interleave_one {A} (p l : list A) : interleave [p] l -> l = p.
Proof.
  intros I. remember [p] as ps eqn:E. revert p E. induction I as [ps H|ps i x t l N I IH]; intros p ->.
  - symmetry. apply H. now left.
  - destruct i as [|i]; [|now destruct i]. cbn in N. injection N as ->. cbn in IH. f_equal. now apply IH.
Qed.
Lemma in_interleave {A} (ps : list (list A)) l x : interleave ps l -> (In x l <-> exists p, In p ps /\ In x p).
Proof. intros I. apply interleave_perm in I. split; intros H; [apply (Permutation_in _ I) in H | apply (Permutation_in _ (Permutation_sym I))]; [apply in_concat in H as (p & ? & ?); eauto|apply in_concat; destruct H as (p & ? & ?); eauto]. Qed.

Section Split.
  Context {K : Type} (load : Z -> option (option (Z * K))) (bucket_of : K -> option nat) (B nb : nat).
  Fixpoint loads (is : list Z) : option (list (Z * K)) :=
    match is with
    | [] => Some []
    | i :: r => match load i, loads r with Some (Some d), Some l => Some (d :: l) | Some None, Some l => Some l | _, _ => None end
    end.
  Definition in_b (b : nat) (d : Z * K) : bool := match bucket_of (snd d) with Some c => Nat.eqb c b | None => false end.
  Definition fit (d : Z * K) : Prop := 0 <= fst d /\ exists b, bucket_of (snd d) = Some b /\ (b < nb)%nat.

  (** the state after the items [ds] *)
  Definition state (ds : list (Z * K)) (st : list bucket * list (nat * list (Z * K))) : Prop :=
    length (fst st) = nb /\ Forall (fun m => (fst m < nb)%nat) (snd st) /\
    forall b v, nth_error (fst st) b = Some v ->
      concat (sent_to b (rev (snd st))) ++ items v = filter (in_b b) ds /\
      (front v = None -> filter (in_b b) ds = []) /\ (filter (in_b b) ds = [] -> front v = None) /\ (forall d, front v = Some d -> 0 <= fst d).

  Lemma sent_snoc b (l : list (nat * list (Z * K))) m : concat (sent_to b (l ++ [m])) = concat (sent_to b l) ++ (if Nat.eqb (fst m) b then snd m else []).
  Proof. unfold sent_to. rewrite filter_app, map_app, concat_app. cbn. f_equal. destruct (Nat.eqb (fst m) b); cbn; [apply app_nil_r|reflexivity]. Qed.
  Lemma split_step_ok ds st i d : state ds st -> load i = Some (Some d) -> fit d -> exists st', split_step load bucket_of B st i = Some st' /\ state (ds ++ [d]) st'.
  Proof.
    intros (S1 & S2 & S3) L (D0 & b & Db & Dn). unfold split_step. rewrite L, Db.
    destruct (nth_error_lt (fst st) b ltac:(lia)) as (v & V). rewrite V.
    destruct (S3 _ _ V) as (V1 & V2 & V2' & V3).
    assert (FB : filter (in_b b) (ds ++ [d]) = filter (in_b b) ds ++ [d]) by (rewrite filter_app; cbn; unfold in_b at 2; rewrite Db, Nat.eqb_refl; reflexivity).
    assert (FO : forall c, c <> b -> filter (in_b c) (ds ++ [d]) = filter (in_b c) ds).
    { intros c C. rewrite filter_app. cbn. unfold in_b at 2. rewrite Db. destruct (Nat.eqb_spec b c); [congruence|]. apply app_nil_r. }
    set (v' := {| items := items v ++ [d]; left := left v |}).
    assert (F' : exists f, front v' = Some f /\ 0 <= fst f).
    { unfold front, v'. cbn. destruct (items v) as [|x r] eqn:IV; cbn; [eauto|]. exists x. split; [reflexivity|]. apply V3. unfold front. now rewrite IV. }
    destruct F' as (f & F1 & F2).
    destruct (Nat.eqb (length (items v')) B); (eexists; split; [reflexivity|]); (split; [cbn [fst snd]; now rewrite length_upd|split; [cbn [fst snd]; try (constructor; assumption); assumption|]]); cbn [fst snd];
      intros b0 v0 H; rewrite nth_error_upd in H; destruct (Nat.eqb_spec b b0) as [<-|N]; cbn [andb] in H.
    - rewrite (proj2 (Nat.ltb_lt b (length (fst st)))) in H by lia. injection H as <-. cbn [rev]. rewrite sent_snoc. cbn [fst snd]. rewrite Nat.eqb_refl. cbn [items left]. rewrite app_nil_r, FB.
      split; [unfold v'; cbn [items]; now rewrite <- V1, app_assoc|]. split; [unfold front at 1; cbn; congruence|]. split; [intros X; now destruct (filter (in_b b) ds)|].
      intros e X. unfold front in X at 1. cbn [items left] in X. congruence.
    - rewrite FO by congruence. cbn [rev]. rewrite sent_snoc. cbn [fst snd]. destruct (Nat.eqb_spec b b0); [congruence|]. rewrite app_nil_r. now apply S3.
    - rewrite (proj2 (Nat.ltb_lt b (length (fst st)))) in H by lia. injection H as <-. rewrite FB.
      split; [unfold v'; cbn [items]; now rewrite <- V1, app_assoc|]. split; [congruence|]. split; [intros X; now destruct (filter (in_b b) ds)|]. intros e X. congruence.
    - rewrite FO by congruence. now apply S3.
  Qed.
  Lemma split_loop_ok is : forall ds st l, state ds st -> loads is = Some l -> Forall fit l -> exists st', split_loop load bucket_of B is st = Some st' /\ state (ds ++ l) st'.
  Proof.
    induction is as [|i is IH]; intros ds st l S L F; cbn in L.
    - injection L as <-. exists st. rewrite app_nil_r. now split.
    - cbn. destruct (load i) as [[d|]|] eqn:E; [| |discriminate]; destruct (loads is) as [l'|] eqn:L'; try discriminate; injection L as <-.
      + inversion F as [|? ? F1 F2]; subst. destruct (split_step_ok ds st i d S E F1) as (st1 & E1 & S1). rewrite E1.
        destruct (IH _ _ _ S1 eq_refl F2) as (st2 & E2 & S2). exists st2. split; [assumption|]. now rewrite <- app_assoc in S2.
      + unfold split_step. rewrite E. now apply IH.
  Qed.
  Lemma state_start : state [] (repeat no_items nb, []).
  Proof.
    split; [apply repeat_length|]. split; [constructor|]. cbn [fst snd]. intros b v H. apply nth_error_In, repeat_spec in H. subst.
    split; [reflexivity|]. split; [reflexivity|]. split; [reflexivity|]. discriminate.
  Qed.
  Lemma split_rest_ok (bs : list (@bucket K)) : forall b, (forall v, In v bs -> exists d, front v = Some d /\ 0 <= fst d) ->
    split_rest b bs = Some (map (fun p => (fst p, items (snd p))) (combine (seq b (length bs)) bs)).
  Proof.
    induction bs as [|v bs IH]; intros b H; cbn; [reflexivity|].
    destruct (H v ltac:(now left)) as (d & -> & D). rewrite IH by (intros; apply H; now right). cbn.
    destruct (Z.eqb_spec (fst d) (-1)); [lia|reflexivity].
  Qed.
  Lemma split_rest_none (bs : list (@bucket K)) : forall b v, In v bs -> front v = None -> split_rest b bs = None.
  Proof.
    induction bs as [|y bs IH]; intros b v I F; [destruct I|]. cbn. destruct I as [-> | I]; [now rewrite F|].
    destruct (front y); [|reflexivity]. now rewrite (IH (S b) v I F).
  Qed.
  Lemma sent_rest (bs : list (@bucket K)) : forall s b, concat (sent_to b (map (fun p => (fst p, items (snd p))) (combine (seq s (length bs)) bs))) =
    if (s <=? b)%nat then match nth_error bs (b - s) with Some v => items v | None => [] end else [].
  Proof.
    induction bs as [|v bs IH]; intros s b; cbn [length seq combine map].
    - cbn. destruct (s <=? b)%nat; [|reflexivity]. now destruct (b - s)%nat.
    - unfold sent_to. cbn [filter map fst snd]. destruct (Nat.eqb_spec s b) as [->|N].
      + cbn [map concat snd]. fold (sent_to b (map (fun p => (fst p, items (snd p))) (combine (seq (S b) (length bs)) bs))). rewrite IH.
        destruct (Nat.leb_spec (S b) b); [lia|]. rewrite Nat.leb_refl, Nat.sub_diag. cbn. apply app_nil_r.
      + fold (sent_to b (map (fun p => (fst p, items (snd p))) (combine (seq (S s) (length bs)) bs))). rewrite IH.
        destruct (Nat.leb_spec (S s) b); destruct (Nat.leb_spec s b); try lia; [|reflexivity].
        replace (b - s)%nat with (S (b - S s)) by lia. reflexivity.
  Qed.
  Lemma splitter_ok w range l : range <> (0, 0) -> loads (positions w (fst range) (snd range)) = Some l -> Forall fit l ->
    (forall b, (b < nb)%nat -> filter (in_b b) l <> []) ->
    exists msgs, splitter load bucket_of w B nb range = Some msgs /\ forall b, (b < nb)%nat -> concat (sent_to b msgs) = filter (in_b b) l.
  Proof.
    intros R L F A. unfold splitter. destruct range as [s e]. cbn [fst snd] in *.
    replace ((s =? 0) && (e =? 0)) with false by (destruct (Z.eqb_spec s 0); destruct (Z.eqb_spec e 0); subst; try reflexivity; congruence).
    destruct (split_loop_ok _ [] _ _ state_start L F) as ([bs sent] & -> & (S1 & S2 & S3)). cbn [app fst snd] in *.
    rewrite split_rest_ok.
    - eexists. split; [reflexivity|]. intros b Hb. unfold sent_to. rewrite filter_app, map_app, concat_app. fold (sent_to b (rev sent)).
      match goal with |- _ ++ concat (map snd (filter ?f ?x)) = _ => change (concat (map snd (filter f x))) with (concat (sent_to b x)) end.
      rewrite sent_rest. cbn [Nat.leb]. rewrite Nat.sub_0_r. destruct (nth_error_lt bs b ltac:(lia)) as (v & V). rewrite V. now apply S3.
    - intros v V. apply In_nth_error in V as (b & V). destruct (S3 _ _ V) as (V1 & V2 & V2' & V3).
      assert (Hb : (b < nb)%nat) by (rewrite <- S1; eapply nth_error_Some_lt; eauto).
      destruct (front v) as [d|]; [exists d; auto|]. exfalso. apply (A b Hb). auto.
  Qed.
  Lemma splitter_missing w range l b : range <> (0, 0) -> loads (positions w (fst range) (snd range)) = Some l -> Forall fit l ->
    (b < nb)%nat -> filter (in_b b) l = [] -> splitter load bucket_of w B nb range = None.
  Proof.
    intros R L F Hb A. unfold splitter. destruct range as [s e]. cbn [fst snd] in *.
    replace ((s =? 0) && (e =? 0)) with false by (destruct (Z.eqb_spec s 0); destruct (Z.eqb_spec e 0); subst; try reflexivity; congruence).
    destruct (split_loop_ok _ [] _ _ state_start L F) as ([bs sent] & -> & (S1 & S2 & S3)). cbn [app fst snd] in *.
    destruct (nth_error_lt bs b ltac:(lia)) as (v & V). rewrite (split_rest_none bs 0 v); [reflexivity|eapply nth_error_In; eauto|]. now apply (S3 b v V).
  Qed.
End Split.

Section Table.
  Context {K : Type} (keq : K -> K -> bool) (w : Z).
  Hypothesis W : 1 < w.
  Hypothesis sym : forall x y, keq x y = true -> keq y x = true.
  Hypothesis trans : forall x y z, keq x y = true -> keq y z = true -> keq x z = true.
  Definition small (d : Z * K) : Prop := 0 <= fst d < 2 ^ (w - 1).

  Lemma find_app {A} (f : A -> bool) l m : find f (l ++ m) = match find f l with Some x => Some x | None => find f m end.
  Proof. induction l as [|x l IH]; cbn; [reflexivity|]. destruct (f x); [reflexivity|assumption]. Qed.
  Lemma find_fold D k : forall t, Forall small D -> find (fun p => keq (fst p) k) (fold_left (insert keq w) D t) =
    match find (fun p => keq (fst p) k) t with Some p => Some p | None => option_map (fun d => (snd d, wrap w (fst d))) (find (fun d => keq (snd d) k) D) end.
  Proof.
    induction D as [|d D IH]; intros t S; cbn [fold_left find].
    - cbn. now destruct (find _ t).
    - inversion S as [|? ? S1 S2]; subst. rewrite IH by assumption. unfold insert. destruct (Z.eqb_spec (fst d) (-1)); [unfold small in S1; lia|].
      destruct (existsb (fun p => keq (fst p) (snd d)) t) eqn:E.
      + destruct (find (fun p => keq (fst p) k) t) as [p|] eqn:F; [reflexivity|].
        destruct (keq (snd d) k) eqn:Q; [|reflexivity]. apply existsb_exists in E as (p & P1 & P2).
        apply (find_none _ _ F) in P1. cbn in P1. rewrite (trans _ _ _ P2 Q) in P1. discriminate.
      + rewrite find_app. destruct (find (fun p => keq (fst p) k) t) as [p|]; [reflexivity|]. cbn. now destruct (keq (snd d) k).
  Qed.
  Lemma wrap_small z : 0 <= z < 2 ^ (w - 1) -> wrap w z = z.
  Proof.
    intros H. unfold wrap. assert (P : 2 ^ w = 2 * 2 ^ (w - 1)) by (rewrite <- Z.pow_succ_r by lia; f_equal; lia).
    rewrite Z.mod_small by lia. destruct (Z.ltb_spec z (2 ^ (w - 1))); lia.
  Qed.
  Definition row_of (o : option (Z * K)) : bool * Z := match o with Some d => (true, fst d) | None => (false, - 2 ^ (w - 1)) end.
  Lemma lookup_ok D k : Forall small D ->
    (let at_ := lookup keq w (fold_left (insert keq w) D []) k in if 0 <=? at_ then (true, at_) else (false, - 2 ^ (w - 1))) =
    row_of (find (fun d => keq (snd d) k) D).
  Proof.
    intros S. cbv zeta. unfold lookup. rewrite find_fold by assumption. cbn [find].
    assert (P : 0 < 2 ^ (w - 1)) by (apply Z.pow_pos_nonneg; lia).
    destruct (find (fun d => keq (snd d) k) D) as [d|] eqn:F; cbn.
    - apply find_some in F as [I _]. assert (Sd : small d) by (rewrite Forall_forall in S; now apply S). unfold small in Sd.
      rewrite wrap_small by assumption. destruct (Z.eqb_spec (fst d) (- 2 ^ (w - 1))); [lia|]. destruct (Z.leb_spec 0 (fst d)); [reflexivity|lia].
    - destruct (Z.leb_spec 0 (- 2 ^ (w - 1))); [lia|reflexivity].
  Qed.
End Table.

Section Member.
  Context {K : Type} (keq : K -> K -> bool) (bucket_of : nat -> K -> option nat).
  Context (w G : Z) (B : nat) (mix : nat -> list (list (list (Z * K))) -> list (list (Z * K))) (ord : sched).
  Hypothesis W : 1 < w.
  Hypothesis sym : forall x y, keq x y = true -> keq y x = true.
  Hypothesis trans : forall x y z, keq x y = true -> keq y z = true -> keq x z = true.
  Hypothesis MIX : mixes mix.
  Hypothesis FAIR : fair ord.

  Lemma writes_rows (rows : list (bool * Z)) out0 : length out0 = length rows -> lift (writes (ord _ (enum 1 0 rows)) out0) = Ret rows.
  Proof. intros L. rewrite (writes_enum _ rows); [reflexivity|apply FAIR|assumption]. Qed.

  (** the result, from what the calls of the splitter send *)
  Lemma is_member_calls size L load calls rs (ds : list (list (Z * K))) ns out0 :
    let nb := num_slices G size in
    ranges w G (wrap w size) L (S (S (Z.to_nat (size * L)))) 0 = Some rs ->
    all_some (map (splitter load (bucket_of nb) w B nb) rs) = Some calls ->
    Forall2 (fun msgs l => forall b, (b < nb)%nat -> concat (sent_to b msgs) = filter (in_b (bucket_of nb) b) l) calls ds ->
    Forall (Forall (small w)) ds -> length out0 = length ns ->
    (forall k b, In (k, b) ns -> exists c, b = Some c /\ (c < nb)%nat) ->
    exists D : nat -> list (Z * K),
      (forall b, D b = concat (mix b (map (sent_to b) calls))) /\
      (forall b d, (b < nb)%nat -> In d (D b) <-> exists l, In l ds /\ In d l /\ in_b (bucket_of nb) b d = true) /\
      (forall l, ds = [l] -> forall b, (b < nb)%nat -> D b = filter (in_b (bucket_of nb) b) l) /\
      is_member_tg keq bucket_of w G B mix ord size L load (map Some ns) out0 =
        Ret (map (fun kb => row_of w (find (fun d => keq (snd d) (fst kb)) (D (match snd kb with Some b => b | None => O end)))) ns).
  Proof.
    intros nb HR HC F2 SM LO NS. exists (fun b => concat (mix b (map (sent_to b) calls))).
    assert (IND : forall b d, (b < nb)%nat -> In d (concat (mix b (map (sent_to b) calls))) <-> exists l, In l ds /\ In d l /\ in_b (bucket_of nb) b d = true).
    { intros b d Hb. rewrite in_concat. split.
      - intros (m & M1 & M2). apply (in_interleave _ _ _ (MIX b (map (sent_to b) calls))) in M1 as (p & P1 & P2).
        apply in_map_iff in P1 as (c & <- & P1). clear -F2 P1 P2 M2 Hb. induction F2 as [|c' l cs ls H F2 IH]; [destruct P1|].
        destruct P1 as [<-|P1].
        + assert (X : In d (concat (sent_to b c'))) by (apply in_concat; eauto). rewrite H in X by assumption. apply filter_In in X as [X1 X2]. exists l. split; [now left|auto].
        + destruct (IH P1) as (l' & A & A'). exists l'. split; [now right|auto].
      - intros (l & L1 & L2 & L3).
        assert (X : exists c m, In c calls /\ In m (sent_to b c) /\ In d m).
        { clear -F2 L1 L2 L3 Hb. induction F2 as [|c l' cs ls H F2 IH]; [destruct L1|]. destruct L1 as [->|L1].
          - assert (X : In d (concat (sent_to b c))) by (rewrite H by assumption; apply filter_In; auto). apply in_concat in X as (m & M1 & M2). exists c, m. split; [now left|auto].
          - destruct (IH L1) as (c' & m & A & A'). exists c', m. split; [now right|auto]. }
        destruct X as (c & m & C1 & C2 & C3). exists m. split; [|assumption]. apply (in_interleave _ _ _ (MIX b (map (sent_to b) calls))).
        exists (sent_to b c). split; [now apply in_map|assumption]. }
    split; [reflexivity|]. split; [exact IND|]. split.
    - intros l -> b Hb. inversion F2 as [|c ? ? ? H F2']; subst. inversion F2'; subst. cbn [map]. rewrite (interleave_one _ _ (MIX b [sent_to b c])). now apply H.
    - unfold is_member_tg. fold nb. rewrite HR, HC. rewrite (all_some_ok Some (fun x => x)) by reflexivity. rewrite map_id.
      rewrite (all_some_ok _ (fun kb => row_of w (find (fun d => keq (snd d) (fst kb)) (concat (mix (match snd kb with Some b => b | None => O end) (map (sent_to (match snd kb with Some b => b | None => O end)) calls)))))).
      + apply writes_rows. now rewrite map_length.
      + intros [k b] I. destruct (NS k b I) as (c & -> & Hc). cbn [fst snd]. rewrite (proj2 (Nat.ltb_lt _ _) Hc). f_equal.
        unfold table. rewrite <- (lookup_ok keq w W sym trans); [reflexivity|].
        rewrite Forall_forall. intros d Hd. apply IND in Hd as (l & L1 & L2 & _); [|assumption]. rewrite Forall_forall in SM. specialize (SM l L1). rewrite Forall_forall in SM. now apply SM.
  Qed.
End Member.
