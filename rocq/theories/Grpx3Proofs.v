(** Proofs about the rolling functions on packed groups. *)
From Verif Require Import Base Mem MemLemmas Num GroupModel GroupSpec GroupProofs AccumSpec GrpxModel GrpxSpec GrpxProofs.
Local Open Scope Z_scope.

Lemma nodup_app {A} (l r : list A) : NoDup l -> NoDup r -> (forall x, In x l -> In x r -> False) -> NoDup (l ++ r).
Proof. intros. apply NoDup_app_iff. repeat split; auto. Qed.

Lemma skipn_cons {A} (l : list A) k x : nth_error l k = Some x -> skipn k l = x :: skipn (S k) l.
Proof. revert k. induction l as [|y l IH]; intros [|k] E; try discriminate; simpl in *; [congruence|]. now apply IH. Qed.

Section Roll.
  Context {T U : Type} (w n : Z) (keys : list Z) (src : list T) (ncount igroup ifirst : list Z) (uinv : U) (conv : T -> U).
  Hypothesis lay : layout n keys src ncount igroup ifirst.
  Notation rows g := (rows_with keys g).
  Notation vals g := (group_vals (combine keys src) g).

  (** the writes of one bin: each row of the group once, with the value [P] wants *)
  Definition row_ok (P : nat -> U -> Prop) (g : Z) (ws : list (Z * U)) : Prop :=
    Permutation (map fst ws) (rows g) /\ forall k r, nth_error (rows g) k = Some r -> exists u, In (r, u) ws /\ P k u.

  Lemma bins_rows (f : @xfun U) (P : Z -> nat -> U -> Prop) : forall m low,
    (forall g, low <= g < low + Z.of_nat m -> exists ws, f g = Some ws /\ row_ok (P g) g ws) ->
    exists ws, bin_loop f m low = Some ws /\ (forall r, In r (map fst ws) -> exists g, low <= g < low + Z.of_nat m /\ In r (rows g)) /\
      NoDup (map fst ws) /\
      (forall g k r, low <= g < low + Z.of_nat m -> nth_error (rows g) k = Some r -> exists u, In (r, u) ws /\ P g k u).
  Proof.
    clear lay. induction m as [|m IH]; intros low H; cbn [bin_loop].
    - exists []. repeat split; [intros r []|constructor|lia].
    - destruct (H low ltac:(lia)) as (a & -> & Pa & Ha). destruct (IH (low + 1)) as (b & -> & Hb1 & Hb2 & Hb3); [intros; apply H; lia|].
      exists (a ++ b). split; auto. rewrite map_app. split; [|split].
      + intros r Hr. apply in_app_or in Hr as [Hr|Hr].
        * exists low. split; [lia|]. eapply Permutation_in; eauto.
        * destruct (Hb1 r Hr) as (g & Hg & Hi). exists g. split; auto. lia.
      + apply nodup_app; auto.
        * eapply Permutation_NoDup; [symmetry; exact Pa|apply rows_with_nodup].
        * intros r Hr Hr'. destruct (Hb1 r Hr') as (g & Hg & Hi). apply (Permutation_in _ Pa) in Hr.
          apply rows_with_in in Hr as (k & -> & Hk). apply rows_with_in in Hi as (k' & E & Hk').
          assert (k = k') by lia. subst. assert (g = low) by congruence. lia.
      + intros g k r Hg Hk. destruct (Z.eq_dec g low) as [->|].
        * destruct (Ha k r Hk) as (u & Hu & Hp). exists u. split; auto. apply in_or_app; auto.
        * destruct (Hb3 g k r ltac:(lia) Hk) as (u & Hu & Hp). exists u. split; auto. apply in_or_app; auto.
  Qed.

  (** a loop over positions k0 .. k0+m-1 of a group *)
  Lemma roll_up {St} (body : Z -> St -> option (St * U)) (I : nat -> St -> Prop) (Q : nat -> U -> Prop) g f :
    (forall k, (k < length (rows g))%nat -> zrd igroup (f + Z.of_nat k) = nth_error (rows g) k) ->
    forall m k0 s, (k0 + m <= length (rows g))%nat -> I k0 s ->
    (forall k s, (k0 <= k < k0 + m)%nat -> I k s -> exists s' u, body (f + Z.of_nat k) s = Some (s', u) /\ I (S k) s' /\ Q k u) ->
    exists ws s', roll igroup 1 body m (f + Z.of_nat k0) s = Some (ws, s') /\ I (k0 + m)%nat s' /\
      map fst ws = firstn m (skipn k0 (rows g)) /\
      (forall k r, (k0 <= k < k0 + m)%nat -> nth_error (rows g) k = Some r -> exists u, In (r, u) ws /\ Q k u).
  Proof.
    intros Hz. induction m as [|m IH]; intros k0 s Hk Hi Hb; cbn [roll].
    - exists [], s. repeat split; auto; [now rewrite Nat.add_0_r|lia].
    - rewrite Hz by lia. destruct (nth_error (rows g) k0) as [r0|] eqn:Er; [|apply nth_error_None in Er; lia].
      destruct (Hb k0 s ltac:(lia) Hi) as (s1 & u & -> & Hi1 & Hq).
      destruct (IH (S k0) s1) as (ws & s2 & E & Hi2 & Hm & Hr); [lia|auto|intros; apply Hb; auto; lia|].
      replace (f + Z.of_nat k0 + 1) with (f + Z.of_nat (S k0)) by lia. rewrite E.
      exists ((r0, u) :: ws), s2. split; auto. split; [now replace (k0 + S m)%nat with (S k0 + m)%nat by lia|]. split.
      + simpl map. rewrite Hm, (skipn_cons _ _ _ Er). reflexivity.
      + intros k r Hkr Hn. destruct (Nat.eq_dec k k0) as [->|].
        * assert (r = r0) by congruence. subst. exists u. split; auto. now left.
        * destruct (Hr k r ltac:(lia) Hn) as (u' & Hu & Hp). exists u'. split; auto. now right.
  Qed.

  (** a loop going down over positions k0+m-1 .. k0 *)
  Lemma roll_down {St} (body : Z -> St -> option (St * U)) (I : nat -> St -> Prop) (Q : nat -> U -> Prop) g f :
    (forall k, (k < length (rows g))%nat -> zrd igroup (f + Z.of_nat k) = nth_error (rows g) k) ->
    forall m k0 s, (k0 + m <= length (rows g))%nat -> I (k0 + m)%nat s ->
    (forall k s, (k0 <= k < k0 + m)%nat -> I (S k) s -> exists s' u, body (f + Z.of_nat k) s = Some (s', u) /\ I k s' /\ Q k u) ->
    exists ws s', roll igroup (-1) body m (f + Z.of_nat (k0 + m) - 1) s = Some (ws, s') /\ I k0 s' /\
      Permutation (map fst ws) (firstn m (skipn k0 (rows g))) /\
      (forall k r, (k0 <= k < k0 + m)%nat -> nth_error (rows g) k = Some r -> exists u, In (r, u) ws /\ Q k u).
  Proof.
    intros Hz. induction m as [|m IH]; intros k0 s Hk Hi Hb; cbn [roll].
    - exists [], s. rewrite Nat.add_0_r in Hi. repeat split; auto; lia.
    - replace (f + Z.of_nat (k0 + S m) - 1) with (f + Z.of_nat (k0 + m)) by lia.
      rewrite Hz by lia. destruct (nth_error (rows g) (k0 + m)) as [r0|] eqn:Er; [|apply nth_error_None in Er; lia].
      destruct (Hb (k0 + m)%nat s) as (s1 & u & -> & Hi1 & Hq); [lia|now replace (S (k0 + m)) with (k0 + S m)%nat by lia|].
      destruct (IH k0 s1) as (ws & s2 & E & Hi2 & Hm & Hr); [lia|auto|intros; apply Hb; auto; lia|].
      replace (f + Z.of_nat (k0 + m) + -1) with (f + Z.of_nat (k0 + m) - 1) by lia. rewrite E.
      exists ((r0, u) :: ws), s2. split; auto. split; auto. split.
      + simpl map. rewrite Hm. rewrite <- nth_error_skipn in Er. rewrite (firstn_S_snoc _ _ _ Er).
        apply Permutation_cons_append.
      + intros k r Hkr Hn. destruct (Nat.eq_dec k (k0 + m)) as [->|].
        * assert (r = r0) by congruence. subst. exists u. split; auto. now left.
        * destruct (Hr k r ltac:(lia) Hn) as (u' & Hu & Hp). exists u'. split; auto. now right.
  Qed.

  Lemma mark_invalid_ok g : 0 <= g < n -> exists ws, mark_invalid igroup ifirst ncount uinv g = Some ws /\ row_ok (fun _ u => u = uinv) g ws.
  Proof.
    intros Hg. destruct (layout_bin n keys src ncount igroup ifirst lay g Hg) as (f & Ef & Ec & F0 & Fb & Hr & Hs).
    unfold mark_invalid. rewrite Ef, Ec, Nat2Z.id.
    destruct (roll_up (fun _ (s : unit) => Some (s, uinv)) (fun _ _ => True) (fun _ u => u = uinv) g f Hr (length (rows g)) 0 tt) as (ws & s' & E & _ & Hm & Hq); auto.
    { intros k s _ _. exists s, uinv. auto. }
    rewrite Z.add_0_r in E. rewrite E. exists ws. split; auto. split.
    - rewrite Hm. simpl skipn. rewrite firstn_all. reflexivity.
    - intros k r Hk. apply (Hq k r); auto. apply nth_error_Some_lt in Hk. lia.
  Qed.

  Lemma roll_call_ok (f : @xfun U) (P : list T -> nat -> U -> Prop) low high out0 :
    (forall g, 0 < g < n -> exists ws, f g = Some ws /\ row_ok (P (vals g)) g ws) ->
    0 < n -> 0 <= low <= high -> high <= n -> length out0 = length keys ->
    exists res, GroupByX (roll_call igroup ifirst ncount uinv false f) low high out0 = Some res /\ per_row uinv P low high keys src out0 res.
  Proof.
    intros Hf Hn0 Hl Hh Lo. unfold GroupByX, roll_call.
    set (low' := if low =? 0 then 1 else low). set (m := Z.to_nat (high - low')).
    assert (Hl' : low' = if low =? 0 then 1 else low) by reflexivity.
    assert (B : exists b, xcall f low' high = Some b /\ (forall r, In r (map fst b) -> exists g, low' <= g < low' + Z.of_nat m /\ In r (rows g)) /\
        NoDup (map fst b) /\ (forall g k r, low' <= g < low' + Z.of_nat m -> nth_error (rows g) k = Some r -> exists u, In (r, u) b /\ P (vals g) k u)).
    { unfold xcall. apply (bins_rows f (fun g => P (vals g))). intros g Hg. apply Hf. destruct (Z.eqb_spec low 0); lia. }
    destruct B as (b & Eb & B1 & B2 & B3).
    assert (A : exists a, (if low =? 0 then mark_invalid igroup ifirst ncount uinv 0 else Some []) = Some a /\
        (low = 0 -> row_ok (fun _ u => u = uinv) 0 a) /\ (low <> 0 -> a = [])).
    { destruct (Z.eqb_spec low 0).
      - destruct (mark_invalid_ok 0 ltac:(lia)) as (a & -> & Ha). exists a. repeat split; try tauto; try lia. now apply Ha. now apply Ha.
      - exists []. repeat split; auto; lia. }
    destruct A as (a & -> & A1 & A2). rewrite Eb.
    assert (A3 : forall r, In r (map fst a) -> low = 0 /\ In r (rows 0)).
    { intros r Hr. destruct (Z.eq_dec low 0) as [E|E]; [|rewrite (A2 E) in Hr; destruct Hr]. split; auto.
      eapply Permutation_in; [apply (A1 E)|exact Hr]. }
    assert (Uq : forall g g' r, In r (rows g) -> In r (rows g') -> g = g').
    { intros g g' r H1 H2. apply rows_with_in in H1 as (k & -> & Hk). apply rows_with_in in H2 as (k' & E & Hk').
      assert (k = k') by lia. subst. congruence. }
    assert (Rb : forall g r, In r (rows g) -> 0 <= r < Z.of_nat (length out0)).
    { intros g r Hr. apply rows_with_in in Hr as (k & -> & Hk). apply nth_error_Some_lt in Hk. lia. }
    destruct (writes_distinct (a ++ b) out0) as (res & E & L & H1 & H2).
    - rewrite map_app. apply nodup_app; auto.
      + destruct (Z.eq_dec low 0) as [E|E]; [|rewrite (A2 E); constructor].
        eapply Permutation_NoDup; [symmetry; apply (A1 E)|apply rows_with_nodup].
      + intros r Hr Hr'. apply A3 in Hr as [E Hr]. destruct (B1 r Hr') as (g & Hg & Hi). pose proof (Uq _ _ _ Hr Hi) as E0.
        rewrite Hl' in Hg. destruct (Z.eqb_spec low 0); lia.
    - intros i x Hi. assert (Hi' : In i (map fst (a ++ b))) by (apply in_map_iff; exists (i, x); auto).
      rewrite map_app in Hi'. apply in_app_or in Hi' as [Hi'|Hi'].
      + apply A3 in Hi' as [_ Hi']. eauto.
      + destruct (B1 i Hi') as (g & _ & Hg). eauto.
    - exists res. split; [exact E|]. split; auto. intros g k r Hk. pose proof (nth_error_In _ _ Hk) as Hin. repeat split.
      + intros Hg Hg0. destruct (B3 g k r) as (u & Hu & Hp); auto; [destruct (Z.eqb_spec low 0); lia|].
        exists u. split; auto. apply H1. apply in_or_app; auto.
      + intros El ->. destruct (A1 El) as [_ Ha]. destruct (Ha k r Hk) as (u & Hu & ->). apply H1. apply in_or_app; auto.
      + intros Hg Hg0. pose proof (Rb _ _ Hin). apply H2. rewrite Z2Nat.id by lia. rewrite map_app. intros Hi. apply in_app_or in Hi as [Hi|Hi].
        * apply A3 in Hi as [El Hi]. apply Hg0. split; auto. eapply Uq; eauto.
        * destruct (B1 r Hi) as (g' & Hg' & Hi'). pose proof (Uq _ _ _ Hin Hi') as E0. rewrite Hl' in Hg'. unfold m in Hg'. rewrite Hl' in Hg'. destruct (Z.eqb_spec low 0); lia.
  Qed.

  (** the early return of a negative window: only the rows of the invalid bin are written *)
  Lemma roll_call_early (f : @xfun U) low high out0 : 0 < n -> 0 <= low -> length out0 = length keys ->
    exists res, GroupByX (roll_call igroup ifirst ncount uinv true f) low high out0 = Some res /\
      length res = length out0 /\ forall g k r, nth_error (rows g) k = Some r ->
        nth_error res (Z.to_nat r) = if (low =? 0) && (g =? 0) then Some uinv else nth_error out0 (Z.to_nat r).
  Proof.
    intros Hn Hl Lo. unfold GroupByX, roll_call. destruct (Z.eqb_spec low 0) as [->|Hne].
    - destruct (mark_invalid_ok 0 ltac:(lia)) as (a & -> & Pa & Ha).
      destruct (writes_distinct a out0) as (res & E & L & H1 & H2).
      + eapply Permutation_NoDup; [symmetry; exact Pa|apply rows_with_nodup].
      + intros i x Hi. assert (Hi' : In i (rows 0)) by (eapply Permutation_in; [exact Pa|apply in_map_iff; exists (i, x); auto]).
        apply rows_with_in in Hi' as (k & -> & Hk). apply nth_error_Some_lt in Hk. lia.
      + exists res. split; [exact E|]. split; auto. intros g k r Hk. pose proof (nth_error_In _ _ Hk) as Hin. cbn [andb Z.eqb].
        destruct (Z.eqb_spec g 0) as [->|Hg].
        * destruct (Ha k r Hk) as (u & Hu & ->). simpl. now apply H1.
        * assert (Hr : 0 <= r) by (apply rows_with_in in Hin as (k' & -> & _); lia).
          simpl. apply H2. rewrite Z2Nat.id by lia. intros Hi. apply (Permutation_in _ Pa) in Hi.
          apply rows_with_in in Hi as (k1 & -> & Hk1). apply rows_with_in in Hin as (k2 & E2 & Hk2).
          assert (k1 = k2) by lia. subst. congruence.
    - exists out0. repeat split.
  Qed.

  Lemma two_loops_ok {St} win body1 body2 (s0 : St) (I : nat -> St -> Prop) (Q : nat -> U -> Prop) g :
    0 < g < n -> 0 < w -> 0 <= win -> Z.of_nat (length keys) + win < 2 ^ (w - 1) -> I 0%nat s0 ->
    (forall f k s, (forall k, (k < length (rows g))%nat -> src_at src igroup (f + Z.of_nat k) = nth_error (vals g) k) ->
       (k < length (rows g))%nat -> Z.of_nat k < win -> I k s ->
       exists s' u, body1 f (f + Z.of_nat k) s = Some (s', u) /\ I (S k) s' /\ Q k u) ->
    (forall f k s, (forall k, (k < length (rows g))%nat -> src_at src igroup (f + Z.of_nat k) = nth_error (vals g) k) ->
       (k < length (rows g))%nat -> win <= Z.of_nat k -> I k s ->
       exists s' u, body2 f (f + Z.of_nat k) s = Some (s', u) /\ I (S k) s' /\ Q k u) ->
    exists ws, two_loops w igroup ifirst ncount win body1 body2 s0 g = Some ws /\ row_ok Q g ws.
  Proof.
    intros Hg Hw Hwin Hb Hi0 H1 H2.
    destruct (layout_bin n keys src ncount igroup ifirst lay g ltac:(lia)) as (f & Ef & Ec & F0 & Fb & Hr & Hs).
    assert (Lg : (length igroup <= length keys)%nat).
    { destruct lay as (_ & _ & (Lg & _ & _)). lia. }
    unfold two_loops. rewrite Ef, Ec. set (c := length (rows g)) in *.
    rewrite wrap_id by lia.
    set (m1 := Z.to_nat (Z.min (f + Z.of_nat c) (f + win) - f)). assert (M1 : Z.of_nat m1 = Z.min (Z.of_nat c) win) by lia.
    destruct (roll_up (body1 f) I Q g f Hr m1 0 s0) as (ws1 & s1 & E1 & Hi1 & Hm1 & Hq1); [fold c; lia|auto| |].
    { intros k s Hk Hi. apply H1; auto; fold c; lia. }
    rewrite Z.add_0_r in E1. rewrite E1.
    destruct (Z.ltb_spec (Z.of_nat c) win) as [Hc|Hc].
    - replace (Z.to_nat (f + Z.of_nat c - (f + win))) with 0%nat by lia. simpl. exists (ws1 ++ []). split; auto. rewrite app_nil_r. split.
      + rewrite Hm1. simpl. replace m1 with c by lia. unfold c. rewrite firstn_all. reflexivity.
      + intros k r Hk. apply Hq1; auto. apply nth_error_Some_lt in Hk. fold c in Hk. lia.
    - assert (Ew : win = Z.of_nat m1) by lia.
      replace (Z.to_nat (f + Z.of_nat c - (f + win))) with (c - m1)%nat by lia. rewrite Ew.
      destruct (roll_up (body2 f) I Q g f Hr (c - m1) m1 s1) as (ws2 & s2 & E2 & Hi2 & Hm2 & Hq2); [fold c; lia|exact Hi1| |].
      { intros k s Hk Hi. apply H2; auto; fold c; lia. }
      rewrite E2. exists (ws1 ++ ws2). split; auto. split.
      + rewrite map_app, Hm1, Hm2. simpl skipn. rewrite (firstn_all2 (n := (c - m1)%nat)) by (rewrite skipn_length; fold c; lia).
        rewrite firstn_skipn. reflexivity.
      + intros k r Hk. pose proof (nth_error_Some_lt _ _ _ Hk) as Hlt. fold c in Hlt. destruct (Nat.ltb_spec k m1).
        * destruct (Hq1 k r ltac:(lia) Hk) as (u & Hu & Hp). exists u. split; auto. apply in_or_app; auto.
        * destruct (Hq2 k r ltac:(lia) Hk) as (u & Hu & Hp). exists u. split; auto. apply in_or_app; auto.
  Qed.

  (** ** The windows *)
  Context (zero : U) (add sub : U -> U -> U) (div : U -> Z -> U) (ok : T -> bool).
  Hypothesis Hadd : exact_add zero add.
  Hypothesis Hsub : exact_sub add sub.

  (* the values of the window before position k *)
  Definition wbefore (win : Z) (k : nat) (l : list T) : list T := skipn (k - Z.to_nat win) (firstn k l).

  Lemma wbefore_window win k l : wbefore win (S k) l = window win k l.
  Proof. unfold wbefore, window. now replace (k + 1)%nat with (S k) by lia. Qed.

  Lemma wbefore_grow win k l x : nth_error l k = Some x -> Z.of_nat k < win -> wbefore win (S k) l = wbefore win k l ++ [x].
  Proof.
    intros E H. unfold wbefore. replace (S k - Z.to_nat win)%nat with 0%nat by lia. replace (k - Z.to_nat win)%nat with 0%nat by lia.
    simpl skipn. now apply firstn_S_snoc.
  Qed.

  Lemma wbefore_slide win k l x : nth_error l k = Some x -> 0 <= win <= Z.of_nat k ->
    exists y, nth_error l (k - Z.to_nat win) = Some y /\ wbefore win k l ++ [x] = y :: wbefore win (S k) l.
  Proof.
    intros E H. pose proof (nth_error_Some_lt _ _ _ E) as Hk. unfold wbefore. set (i := (k - Z.to_nat win)%nat).
    assert (Ei : (S k - Z.to_nat win)%nat = S i) by lia. rewrite Ei.
    destruct (nth_error l i) as [y|] eqn:Ey; [|apply nth_error_None in Ey; lia]. exists y. split; auto.
    replace (skipn i (firstn k l) ++ [x]) with (skipn i (firstn (S k) l)).
    - assert (Ey' : nth_error (firstn (S k) l) i = Some y) by (rewrite nth_error_firstn; destruct (Nat.ltb_spec i (S k)); [auto|lia]).
      now apply skipn_cons.
    - rewrite (firstn_S_snoc _ _ _ E), skipn_app, firstn_length. replace (i - Nat.min k (length l))%nat with 0%nat by lia. reflexivity.
  Qed.

  Lemma total_cons y l : total zero conv add (y :: l) = add (total zero conv add l) (conv y).
  Proof.
    destruct Hadd as (C & A & _). unfold total. simpl. generalize zero as z. induction l as [|x l IH]; intros z; simpl; auto.
    rewrite <- IH. f_equal. rewrite !A. f_equal. apply C.
  Qed.
  Lemma total_snoc l x : total zero conv add (l ++ [x]) = add (total zero conv add l) (conv x).
  Proof. unfold total. now rewrite fold_left_app. Qed.

  Lemma slide_total win k l x y : nth_error l k = Some x -> 0 <= win <= Z.of_nat k -> nth_error l (k - Z.to_nat win) = Some y ->
    sub (add (total zero conv add (wbefore win k l)) (conv x)) (conv y) = total zero conv add (wbefore win (S k) l).
  Proof.
    intros Ex H Ey. destruct (wbefore_slide win k l x Ex H) as (y' & Ey' & E). assert (y' = y) by congruence. subst.
    rewrite <- total_snoc, E, total_cons. apply Hsub.
  Qed.

  Lemma slide_total_ok win k l x y : nth_error l k = Some x -> 0 <= win <= Z.of_nat k -> nth_error l (k - Z.to_nat win) = Some y ->
    sub_ok conv sub ok (add_ok conv add ok (total zero conv add (filter ok (wbefore win k l))) x) y = total zero conv add (filter ok (wbefore win (S k) l)).
  Proof.
    intros Ex H Ey. destruct (wbefore_slide win k l x Ex H) as (y' & Ey' & E). assert (y' = y) by congruence. subst.
    assert (A : add_ok conv add ok (total zero conv add (filter ok (wbefore win k l))) x = total zero conv add (filter ok (wbefore win k l ++ [x]))).
    { rewrite filter_app. simpl. unfold add_ok. destruct (ok x); [now rewrite total_snoc|now rewrite app_nil_r]. }
    rewrite A, E. simpl. unfold sub_ok. destruct (ok y); auto. rewrite total_cons. apply Hsub.
  Qed.

  Lemma slide_count win k l x y : nth_error l k = Some x -> 0 <= win <= Z.of_nat k -> nth_error l (k - Z.to_nat win) = Some y ->
    Z.of_nat (length (filter ok (wbefore win k l))) + count_ok ok x - count_ok ok y = Z.of_nat (length (filter ok (wbefore win (S k) l))).
  Proof.
    intros Ex H Ey. destruct (wbefore_slide win k l x Ex H) as (y' & Ey' & E). assert (y' = y) by congruence. subst.
    assert (A : length (filter ok (wbefore win k l ++ [x])) = length (filter ok (y :: wbefore win (S k) l))) by now rewrite E.
    rewrite filter_app, app_length in A. simpl in A. unfold count_ok. destruct (ok x), (ok y); simpl in A; lia.
  Qed.

  Lemma src_pair g f k win : (forall k, (k < length (rows g))%nat -> src_at src igroup (f + Z.of_nat k) = nth_error (vals g) k) ->
    (k < length (rows g))%nat -> 0 <= win <= Z.of_nat k ->
    exists x y, src_at src igroup (f + Z.of_nat k) = Some x /\ nth_error (vals g) k = Some x /\
      src_at src igroup (f + Z.of_nat k - win) = Some y /\ nth_error (vals g) (k - Z.to_nat win) = Some y.
  Proof.
    intros Hs Hk Hw. pose proof (vals_len n keys src ncount igroup ifirst lay g) as L.
    replace (f + Z.of_nat k - win) with (f + Z.of_nat (k - Z.to_nat win)) by lia. rewrite !Hs by lia.
    destruct (nth_error (vals g) k) as [x|] eqn:Ex; [|apply nth_error_None in Ex; lia].
    destruct (nth_error (vals g) (k - Z.to_nat win)) as [y|] eqn:Ey; [|apply nth_error_None in Ey; lia]. eauto 7.
  Qed.
  Lemma src_one g f k : (forall k, (k < length (rows g))%nat -> src_at src igroup (f + Z.of_nat k) = nth_error (vals g) k) ->
    (k < length (rows g))%nat -> exists x, src_at src igroup (f + Z.of_nat k) = Some x /\ nth_error (vals g) k = Some x.
  Proof.
    intros Hs Hk. pose proof (vals_len n keys src ncount igroup ifirst lay g) as L. rewrite !Hs by lia.
    destruct (nth_error (vals g) k) as [x|] eqn:Ex; [|apply nth_error_None in Ex; lia]. eauto.
  Qed.

  Section Win.
    Context (win : Z).
    Hypothesis Hw : 0 < w.
    Hypothesis Hwin : 0 <= win.
    Hypothesis Hb : Z.of_nat (length keys) + win < 2 ^ (w - 1).

    Lemma roll_sum_ok g : 0 < g < n -> exists ws, roll_sum w src igroup ifirst ncount conv zero add sub win g = Some ws /\
      row_ok (rsum_spec conv zero add win (vals g)) g ws.
    Proof.
      intros Hg. unfold roll_sum.
      apply (two_loops_ok win _ _ zero (fun k s => s = total zero conv add (wbefore win k (vals g)))); auto.
      - intros f k s Hs Hk Hlt ->. destruct (src_one g f k Hs Hk) as (x & -> & Ex). eexists _, _. split; [reflexivity|].
        rewrite <- total_snoc, <- (wbefore_grow win k _ x Ex Hlt). split; auto. unfold rsum_spec. now rewrite wbefore_window.
      - intros f k s Hs Hk Hge ->. destruct (src_pair g f k win Hs Hk ltac:(lia)) as (x & y & -> & Ex & -> & Ey). eexists _, _. split; [reflexivity|].
        rewrite (slide_total win k _ x y Ex ltac:(lia) Ey). split; auto. unfold rsum_spec. now rewrite wbefore_window.
    Qed.

    Lemma wlen k (l : list T) x : nth_error l k = Some x -> length (window win k l) = Nat.min (S k) (Z.to_nat win).
    Proof. clear. intros E. apply nth_error_Some_lt in E. unfold window. rewrite skipn_length, firstn_length. lia. Qed.

    Lemma roll_mean_ok g : 0 < g < n -> exists ws, roll_mean w src igroup ifirst ncount conv zero add sub div win g = Some ws /\
      row_ok (rmean_spec conv zero add div win (vals g)) g ws.
    Proof.
      intros Hg. unfold roll_mean.
      apply (two_loops_ok win _ _ zero (fun k s => s = total zero conv add (wbefore win k (vals g)))); auto.
      - intros f k s Hs Hk Hlt ->. destruct (src_one g f k Hs Hk) as (x & -> & Ex). eexists _, _. split; [reflexivity|].
        rewrite <- total_snoc, <- (wbefore_grow win k _ x Ex Hlt). split; auto. unfold rmean_spec. rewrite wbefore_window.
        rewrite (wlen k _ x Ex). f_equal. lia.
      - intros f k s Hs Hk Hge ->. destruct (src_pair g f k win Hs Hk ltac:(lia)) as (x & y & -> & Ex & -> & Ey). eexists _, _. split; [reflexivity|].
        rewrite (slide_total win k _ x y Ex ltac:(lia) Ey). split; auto. unfold rmean_spec. rewrite wbefore_window.
        rewrite (wlen k _ x Ex). f_equal. lia.
    Qed.

    Lemma grow_ok k l x : nth_error l k = Some x -> Z.of_nat k < win ->
      add_ok conv add ok (total zero conv add (filter ok (wbefore win k l))) x = total zero conv add (filter ok (wbefore win (S k) l)).
    Proof.
      intros Ex H. rewrite (wbefore_grow win k l x Ex H), filter_app. simpl. unfold add_ok.
      destruct (ok x); [now rewrite total_snoc|now rewrite app_nil_r].
    Qed.

    Lemma roll_nansum_ok g : 0 < g < n -> exists ws, roll_nansum w src igroup ifirst ncount conv zero add sub ok win g = Some ws /\
      row_ok (rnansum_spec conv zero add ok win (vals g)) g ws.
    Proof.
      intros Hg. unfold roll_nansum.
      apply (two_loops_ok win _ _ zero (fun k s => s = total zero conv add (filter ok (wbefore win k (vals g))))); auto.
      - intros f k s Hs Hk Hlt ->. destruct (src_one g f k Hs Hk) as (x & -> & Ex). eexists _, _. split; [reflexivity|].
        rewrite (grow_ok k _ x Ex Hlt). split; auto. unfold rnansum_spec. now rewrite wbefore_window.
      - intros f k s Hs Hk Hge ->. destruct (src_pair g f k win Hs Hk ltac:(lia)) as (x & y & -> & Ex & -> & Ey). eexists _, _. split; [reflexivity|].
        rewrite (slide_total_ok win k _ x y Ex ltac:(lia) Ey). split; auto. unfold rnansum_spec. now rewrite wbefore_window.
    Qed.

    Lemma mean_or_spec v : mean_or uinv div (total zero conv add v) (Z.of_nat (length v)) =
      match v with [] => uinv | _ => div (total zero conv add v) (Z.of_nat (length v)) end.
    Proof. clear. unfold mean_or. destruct v; simpl length; auto. Qed.

    Lemma roll_nanmean_ok g : 0 < g < n -> exists ws, roll_nanmean w src igroup ifirst ncount uinv conv zero add sub div ok win g = Some ws /\
      row_ok (rnanmean_spec uinv conv zero add div ok win (vals g)) g ws.
    Proof.
      intros Hg. unfold roll_nanmean.
      apply (two_loops_ok win _ _ (zero, 0) (fun k s => s = (total zero conv add (filter ok (wbefore win k (vals g))), Z.of_nat (length (filter ok (wbefore win k (vals g))))))); auto.
      - intros f k s Hs Hk Hlt ->. cbn [fst snd]. destruct (src_one g f k Hs Hk) as (x & -> & Ex). eexists _, _. split; [reflexivity|].
        rewrite (grow_ok k _ x Ex Hlt).
        assert (C : Z.of_nat (length (filter ok (wbefore win k (vals g)))) + count_ok ok x = Z.of_nat (length (filter ok (wbefore win (S k) (vals g))))).
        { rewrite (wbefore_grow win k _ x Ex Hlt), filter_app, app_length. simpl. unfold count_ok. destruct (ok x); simpl; lia. }
        rewrite C. split; auto. unfold rnanmean_spec. rewrite <- wbefore_window. apply mean_or_spec.
      - intros f k s Hs Hk Hge ->. cbn [fst snd]. destruct (src_pair g f k win Hs Hk ltac:(lia)) as (x & y & -> & Ex & -> & Ey). eexists _, _. split; [reflexivity|].
        rewrite (slide_total_ok win k _ x y Ex ltac:(lia) Ey), (slide_count win k _ x y Ex ltac:(lia) Ey). split; auto. unfold rnanmean_spec. rewrite <- wbefore_window.
        apply mean_or_spec.
    Qed.
  End Win.

  Lemma roll_count_ok cnt win g : 0 < g < n -> exists ws, roll_count igroup ifirst ncount cnt win g = Some ws /\
      row_ok (rcount_spec cnt win (vals g)) g ws.
  Proof.
    intros Hg. destruct (layout_bin n keys src ncount igroup ifirst lay g ltac:(lia)) as (f & Ef & Ec & F0 & Fb & Hr & Hs).
    pose proof (vals_len n keys src ncount igroup ifirst lay g) as L.
    unfold roll_count, rcount_spec. rewrite Ef, Ec, Nat2Z.id, L. set (c := length (rows g)) in *. destruct (win <? 0).
    - destruct (roll_down (fun _ s => Some (s + 1, cnt s)) (fun k s => s = Z.of_nat c - Z.of_nat k) (fun k u => u = cnt (Z.of_nat c - 1 - Z.of_nat k)) g f Hr c 0 0)
        as (ws & s' & E & _ & Hm & Hq); [fold c; lia|lia| |].
      { intros k s Hk ->. eexists _, _. split; [reflexivity|]. split; [lia|f_equal; lia]. }
      rewrite Nat.add_0_l in E. rewrite E. exists ws. split; auto. split.
      + rewrite Hm. simpl. unfold c. rewrite firstn_all. reflexivity.
      + intros k r Hk. apply (Hq k r); auto. apply nth_error_Some_lt in Hk. fold c in Hk. lia.
    - destruct (roll_up (fun _ s => Some (s + 1, cnt s)) (fun k s => s = Z.of_nat k) (fun k u => u = cnt (Z.of_nat k)) g f Hr c 0 0)
        as (ws & s' & E & _ & Hm & Hq); [fold c; lia|lia| |].
      { intros k s Hk ->. eexists _, _. split; [reflexivity|]. split; [lia|f_equal; lia]. }
      rewrite Z.add_0_r in E. rewrite E. exists ws. split; auto. split.
      + rewrite Hm. simpl. unfold c. rewrite firstn_all. reflexivity.
      + intros k r Hk. apply (Hq k r); auto. apply nth_error_Some_lt in Hk. fold c in Hk. lia.
  Qed.

  Definition pair_spec (f : T -> T -> U) (win : Z) (vals : list T) (k : nat) (u : U) : Prop :=
    u = match nth_error vals k, lag win k vals with Some x, Some y => f x y | _, _ => uinv end.

  Lemma roll_pair_ok pf win g : 0 < g < n -> 0 < w -> Z.of_nat (length keys) + Z.abs win < 2 ^ (w - 1) ->
    exists ws, roll_pair w src igroup ifirst ncount uinv pf win g = Some ws /\ row_ok (pair_spec pf win (vals g)) g ws.
  Proof.
    intros Hg Hw Hb. unfold roll_pair, pair_spec, lag. destruct (Z.leb_spec 0 win) as [Hp|Hn].
    - apply (two_loops_ok win _ _ tt (fun _ _ => True)); auto; try lia.
      + intros f k s Hs Hk Hlt _. eexists _, _. split; [reflexivity|]. split; auto.
        destruct (Z.leb_spec 0 (Z.of_nat k - win)); [lia|]. now destruct (nth_error (vals g) k).
      + intros f k s Hs Hk Hge _. destruct (src_pair g f k win Hs Hk ltac:(lia)) as (x & y & Hx & Ex & Hy & Ey). rewrite Hx, Hy.
        eexists _, _. split; [reflexivity|]. split; auto. rewrite Ex.
        destruct (Z.leb_spec 0 (Z.of_nat k - win)); [|lia].
        replace (Z.to_nat (Z.of_nat k - win)) with (k - Z.to_nat win)%nat by lia. now rewrite Ey.
    - destruct (layout_bin n keys src ncount igroup ifirst lay g ltac:(lia)) as (f & Ef & Ec & F0 & Fb & Hr & Hs).
      pose proof (vals_len n keys src ncount igroup ifirst lay g) as L.
      assert (Lg : (length igroup <= length keys)%nat) by (destruct lay as (_ & _ & (Lg & _ & _)); lia).
      rewrite Ef, Ec. set (c := length (rows g)) in *.
      rewrite wrap_id by lia.
      set (m1 := Z.to_nat (f + Z.of_nat c - 1 - Z.max (f - 1) (f + Z.of_nat c - 1 - - win))).
      assert (M1 : Z.of_nat m1 = Z.min (Z.of_nat c) (- win)) by lia.
      set (Q := fun k u => u = match nth_error (vals g) k with Some x => match (if 0 <=? Z.of_nat k - win then nth_error (vals g) (Z.to_nat (Z.of_nat k - win)) else None) with Some y => pf x y | None => uinv end | None => uinv end).
      destruct (roll_down (fun (_ : Z) (s : unit) => Some (s, uinv)) (fun _ _ => True) Q g f Hr m1 (c - m1) tt) as (ws1 & s1 & E1 & _ & Hm1 & Hq1); auto; [fold c; lia| |].
      { intros k s Hk _. eexists _, _. split; [reflexivity|]. split; auto. unfold Q.
        destruct (Z.leb_spec 0 (Z.of_nat k - win)); [|lia].
        rewrite (proj2 (nth_error_None (vals g) (Z.to_nat (Z.of_nat k - win)))) by (rewrite L; fold c; lia). now destruct (nth_error (vals g) k). }
      replace (f + Z.of_nat (c - m1 + m1) - 1) with (f + Z.of_nat c - 1) in E1 by lia. rewrite E1.
      assert (Hall : forall a b : list (Z * U), Permutation (map fst a) (firstn m1 (skipn (c - m1) (rows g))) -> Permutation (map fst b) (firstn (c - m1) (skipn 0 (rows g))) ->
                Permutation (map fst (a ++ b)) (rows g)).
      { intros a b Ha Hb'. rewrite map_app, Ha, Hb'. simpl skipn. rewrite (firstn_all2 (n := m1)) by (rewrite skipn_length; fold c; lia).
        rewrite Permutation_app_comm, firstn_skipn. reflexivity. }
      destruct (Z.ltb_spec (- win) (Z.of_nat c)) as [Hc|Hc].
      + destruct (roll_down (fun j (s : unit) => match src_at src igroup j with Some x => match src_at src igroup (j + - win) with Some y => Some (s, pf x y) | None => None end | None => None end)
            (fun _ _ => True) Q g f Hr (c - m1) 0 tt) as (ws2 & s2 & E2 & _ & Hm2 & Hq2); auto; [fold c; lia| |].
        { intros k s Hk _. replace (f + Z.of_nat k + - win) with (f + Z.of_nat (k + Z.to_nat (- win))) by lia.
          rewrite !Hs by lia. unfold Q. destruct (nth_error (vals g) k) as [x|] eqn:Ex; [|apply nth_error_None in Ex; lia].
          destruct (Z.leb_spec 0 (Z.of_nat k - win)); [|lia]. replace (Z.to_nat (Z.of_nat k - win)) with (k + Z.to_nat (- win))%nat by lia.
          destruct (nth_error (vals g) (k + Z.to_nat (- win))) as [y|] eqn:Ey; [|apply nth_error_None in Ey; lia]. eauto. }
        replace (f + Z.of_nat c - 1 - - win) with (f + Z.of_nat (0 + (c - m1)) - 1) by lia.
        replace (Z.to_nat (f + Z.of_nat (0 + (c - m1)) - 1 - (f - 1))) with (c - m1)%nat by lia.
        rewrite E2. exists (ws1 ++ ws2). split; auto. split; [now apply Hall|].
        intros k r Hk. pose proof (nth_error_Some_lt _ _ _ Hk) as Hlt. fold c in Hlt. destruct (Nat.ltb_spec k (c - m1)).
        * destruct (Hq2 k r ltac:(lia) Hk) as (u & Hu & Hp). exists u. split; auto. apply in_or_app; auto.
        * destruct (Hq1 k r ltac:(lia) Hk) as (u & Hu & Hp). exists u. split; auto. apply in_or_app; auto.
      + replace (Z.to_nat (f + Z.of_nat c - 1 - - win - (f - 1))) with 0%nat by lia. simpl roll. exists (ws1 ++ []). split; auto. split.
        * apply Hall; auto. replace (c - m1)%nat with 0%nat by lia. simpl. constructor.
        * intros k r Hk. pose proof (nth_error_Some_lt _ _ _ Hk) as Hlt. fold c in Hlt.
          destruct (Hq1 k r ltac:(lia) Hk) as (u & Hu & Hp). exists u. split; auto. apply in_or_app; auto.
  Qed.

  Lemma row_ok_ext (P P' : nat -> U -> Prop) g ws : (forall k u, (k < length (rows g))%nat -> P k u -> P' k u) -> row_ok P g ws -> row_ok P' g ws.
  Proof.
    intros H [Hp Hr]. split; auto. intros k r Hk. destruct (Hr k r Hk) as (u & Hu & Hp'). exists u. split; auto.
    apply H; auto. eapply nth_error_Some_lt; eauto.
  Qed.

  Lemma roll_shift_ok win g : 0 < g < n -> 0 < w -> Z.of_nat (length keys) + Z.abs win < 2 ^ (w - 1) ->
    exists ws, roll_shift w src igroup ifirst ncount uinv conv win g = Some ws /\ row_ok (rshift_spec uinv conv win (vals g)) g ws.
  Proof.
    intros Hg Hw Hb. destruct (roll_pair_ok (fun _ y => conv y) win g Hg Hw Hb) as (ws & E & H). exists ws. split; auto.
    eapply row_ok_ext; [|exact H]. intros k u Hk ->. unfold rshift_spec.
    destruct (nth_error (vals g) k) eqn:Ex; auto. apply nth_error_None in Ex. rewrite (vals_len n keys src ncount igroup ifirst lay) in Ex. lia.
  Qed.

  Lemma roll_diff_ok win g : 0 < g < n -> 0 < w -> Z.of_nat (length keys) + Z.abs win < 2 ^ (w - 1) ->
    exists ws, roll_diff w src igroup ifirst ncount uinv conv sub win g = Some ws /\ row_ok (rdiff_spec uinv conv sub win (vals g)) g ws.
  Proof.
    intros Hg Hw Hb. unfold roll_diff. destruct (Z.eqb_spec win 1) as [->|].
    2:{ destruct (roll_pair_ok (fun x y => sub (conv x) (conv y)) win g Hg Hw Hb) as (ws & E & H). exists ws. split; auto. }
    destruct (layout_bin n keys src ncount igroup ifirst lay g ltac:(lia)) as (f & Ef & Ec & F0 & Fb & Hr & Hs).
    pose proof (vals_len n keys src ncount igroup ifirst lay g) as L.
    unfold roll_diff1. rewrite Ef, Ec. set (c := length (rows g)) in *. destruct (Z.ltb_spec 0 (Z.of_nat c)) as [Hc|Hc].
    - pose proof (Hr 0%nat ltac:(lia)) as Hr0. pose proof (Hs 0%nat ltac:(lia)) as Hs0. rewrite Z.add_0_r in Hr0, Hs0. rewrite Hr0, Hs0.
      destruct (nth_error (rows g) 0) as [r0|] eqn:Er; [|apply nth_error_None in Er; fold c in Er; lia].
      destruct (nth_error (vals g) 0) as [x0|] eqn:Ex; [|apply nth_error_None in Ex; lia].
      destruct (roll_up (fun j (prev : U) => match src_at src igroup j with Some y => Some (conv y, sub (conv y) prev) | None => None end)
          (fun k s => exists x, nth_error (vals g) (k - 1) = Some x /\ s = conv x) (rdiff_spec uinv conv sub 1 (vals g)) g f Hr (c - 1) 1 (conv x0))
        as (ws & s' & E & _ & Hm & Hq); [fold c; lia|simpl; eauto| |].
      { intros k s Hk (x & Hx & ->). rewrite Hs by lia. destruct (nth_error (vals g) k) as [y|] eqn:Ey; [|apply nth_error_None in Ey; lia].
        eexists _, _. split; [reflexivity|]. split; [exists y; now replace (S k - 1)%nat with k by lia|].
        unfold rdiff_spec, lag. rewrite Ey. destruct (Z.leb_spec 0 (Z.of_nat k - 1)); [|lia].
        replace (Z.to_nat (Z.of_nat k - 1)) with (k - 1)%nat by lia. now rewrite Hx. }
      change (Z.of_nat 1) with 1 in E. replace (Z.to_nat (Z.of_nat c - 1)) with (c - 1)%nat by lia. rewrite E.
      exists ((r0, uinv) :: ws). split; auto. split.
      + simpl map. rewrite Hm. rewrite (firstn_all2 (n := (c - 1)%nat)) by (rewrite skipn_length; fold c; lia).
        destruct (rows g); [discriminate|]. simpl in *. inversion Er. reflexivity.
      + intros k r Hk. pose proof (nth_error_Some_lt _ _ _ Hk) as Hlt. fold c in Hlt. destruct k as [|k].
        * assert (r = r0) by congruence. subst. exists uinv. split; [now left|]. unfold rdiff_spec. rewrite Ex. reflexivity.
        * destruct (Hq (S k) r ltac:(lia) Hk) as (u & Hu & Hp). exists u. split; auto. now right.
    - exists []. split; auto. split.
      + simpl. destruct (rows g); [constructor|]. simpl in c. lia.
      + intros k r Hk. apply nth_error_Some_lt in Hk. fold c in Hk. lia.
  Qed.
End Roll.
