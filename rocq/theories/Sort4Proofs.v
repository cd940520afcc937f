(** The parallel merge sort: every interleaving of the eight work indices. *)
From Verif Require Import Base Mem MemLemmas SortModel SortSpec SortProofs Sort2Proofs.
Local Open Scope Z_scope.

Section Seg.
  Context {E : Type}.
  Definition seg (a : list E) (lo hi : Z) : list E := firstn (Z.to_nat (hi - lo)) (skipn (Z.to_nat lo) a).
  Lemma seg_split (a : list E) lo hi : 0 <= lo <= hi -> hi <= Z.of_nat (length a) ->
    a = firstn (Z.to_nat lo) a ++ seg a lo hi ++ skipn (Z.to_nat hi) a.
  Proof.
    intros H1 H2. unfold seg. rewrite <- (firstn_skipn (Z.to_nat lo) a) at 1. f_equal. rewrite <- (firstn_skipn (Z.to_nat (hi - lo)) (skipn (Z.to_nat lo) a)) at 1. f_equal.
    apply list_ext. intros i. rewrite !nth_error_skipn. f_equal. lia.
  Qed.
  Lemma seg_length (a : list E) lo hi : 0 <= lo <= hi -> hi <= Z.of_nat (length a) -> Z.of_nat (length (seg a lo hi)) = hi - lo.
  Proof. intros H1 H2. unfold seg. rewrite firstn_length, skipn_length. lia. Qed.
  Lemma seg_mid (p m q : list E) lo hi : lo = Z.of_nat (length p) -> hi = lo + Z.of_nat (length m) -> seg (p ++ m ++ q) lo hi = m.
  Proof.
    intros -> ->. unfold seg. rewrite Nat2Z.id, skipn_app, skipn_all2 by lia. rewrite Nat.sub_diag. cbn [skipn app].
    rewrite firstn_app. replace (Z.to_nat _) with (length m) by lia. rewrite firstn_all, Nat.sub_diag. cbn [firstn]. apply app_nil_r.
  Qed.
  Lemma seg_nth (a : list E) lo hi i : 0 <= lo <= hi -> nth_error (seg a lo hi) i = if Z.of_nat i <? hi - lo then nth_error a (Z.to_nat lo + i) else None.
  Proof.
    intros H. unfold seg. rewrite nth_error_firstn, nth_error_skipn. destruct (Nat.ltb_spec i (Z.to_nat (hi - lo))), (Z.ltb_spec (Z.of_nat i) (hi - lo)); auto; lia.
  Qed.
  Lemma seg_app (a : list E) lo mid hi : 0 <= lo <= mid -> mid <= hi -> hi <= Z.of_nat (length a) -> seg a lo hi = seg a lo mid ++ seg a mid hi.
  Proof.
    intros H1 H2 H3. apply list_ext. intros i. destruct (Nat.ltb_spec i (length (seg a lo mid))) as [H|H]; pose proof (seg_length a lo mid).
    - rewrite nth_error_app1 by auto. rewrite !seg_nth by lia. destruct (Z.ltb_spec (Z.of_nat i) (hi - lo)), (Z.ltb_spec (Z.of_nat i) (mid - lo)); auto; lia.
    - rewrite nth_error_app2 by auto. rewrite !seg_nth by lia.
      destruct (Z.ltb_spec (Z.of_nat i) (hi - lo)), (Z.ltb_spec (Z.of_nat (i - length (seg a lo mid))) (hi - mid)); auto; try lia. f_equal. lia.
  Qed.
  (* writing one range does not change a disjoint one *)
  Lemma seg_out (a : list E) s e r lo hi : 0 <= s <= e -> e <= Z.of_nat (length a) -> Z.of_nat (length r) = e - s -> 0 <= lo <= hi -> hi <= s \/ e <= lo ->
    seg (firstn (Z.to_nat s) a ++ r ++ skipn (Z.to_nat e) a) lo hi = seg a lo hi.
  Proof.
    intros H1 H2 H3 H4 H5. apply list_ext. intros i. rewrite !seg_nth by auto. destruct (Z.ltb_spec (Z.of_nat i) (hi - lo)); auto.
    destruct H5.
    - rewrite nth_error_app1 by (rewrite firstn_length; lia). rewrite nth_error_firstn. destruct (Nat.ltb_spec (Z.to_nat lo + i) (Z.to_nat s)); auto. lia.
    - rewrite nth_error_app2 by (rewrite firstn_length; lia). rewrite firstn_length. rewrite nth_error_app2 by lia. rewrite nth_error_skipn. f_equal. lia.
  Qed.
  Lemma seg_In (a : list E) lo hi x : In x (seg a lo hi) -> In x a.
  Proof. unfold seg. intros H. rewrite <- (firstn_skipn (Z.to_nat lo) a). apply in_app_iff. right.
    rewrite <- (firstn_skipn (Z.to_nat (hi - lo)) (skipn (Z.to_nat lo) a)). apply in_app_iff. now left. Qed.
  Lemma seg_all (a : list E) : seg a 0 (Z.of_nat (length a)) = a.
  Proof. unfold seg. cbn [Z.to_nat skipn]. replace (Z.to_nat _) with (length a) by lia. apply firstn_all. Qed.
End Seg.

(** ** The blocks *)
Inductive status := NS | CALLING (t : nat) (running : bool) | ORING (t : nat) | SET.
Definition done (s : status) : bool := match s with ORING _ | SET => true | _ => false end.
Definition owner (s : status) : option nat := match s with CALLING t _ | ORING t => Some t | _ => None end.
Definition weight (s : status) : nat := match s with NS | CALLING _ false => 3 | CALLING _ true => 2 | ORING _ => 1 | SET => 0 end.

Definition node (l : nat) (k : Z) : Prop := (l <= 3)%nat /\ 0 <= k < 2 ^ (3 - Z.of_nat l).
Definition nodes : list (nat * Z) :=
  [(0%nat, 0); (0%nat, 1); (0%nat, 2); (0%nat, 3); (0%nat, 4); (0%nat, 5); (0%nat, 6); (0%nat, 7);
   (1%nat, 0); (1%nat, 1); (1%nat, 2); (1%nat, 3); (2%nat, 0); (2%nat, 1); (3%nat, 0)].
Lemma node_in l k : node l k -> In (l, k) nodes.
Proof.
  intros [Hl Hk]. destruct l as [|[|[|[|]]]]; [| | | |lia].
  - change (2 ^ (3 - Z.of_nat 0)) with 8 in Hk. assert (k = 0 \/ k = 1 \/ k = 2 \/ k = 3 \/ k = 4 \/ k = 5 \/ k = 6 \/ k = 7) by lia. repeat (destruct H as [-> |H]; [simpl; tauto|]). subst. simpl; tauto.
  - change (2 ^ (3 - Z.of_nat 1)) with 4 in Hk. assert (k = 0 \/ k = 1 \/ k = 2 \/ k = 3) by lia. repeat (destruct H as [-> |H]; [simpl; tauto|]). subst. simpl; tauto.
  - change (2 ^ (3 - Z.of_nat 2)) with 2 in Hk. assert (k = 0 \/ k = 1) by lia. repeat (destruct H as [-> |H]; [simpl; tauto|]). subst. simpl; tauto.
  - change (2 ^ (3 - Z.of_nat 3)) with 1 in Hk. assert (k = 0) as -> by lia. simpl; tauto.
Qed.
Ltac nodes_cases H := apply node_in in H; unfold nodes in H; cbn [In] in H; repeat destruct H as [H|H]; try (destruct H; fail); inversion H; clear H; subst.

(* the index the code uses for the block *)
Definition ixok (l : nat) (k i : Z) : Prop := match l with 0%nat => i = k | 1%nat => i = 2 * k + 1 | 2%nat => i = 4 * k + 3 | _ => True end.
Definition start0 (ends : list Z) (k : Z) : Z := if k =? 0 then 0 else nth (Z.to_nat (k - 1)) ends 0.
Definition start (ends : list Z) (l : nat) (k : Z) : Z := start0 ends (k * 2 ^ Z.of_nat l).

Section Blocks.
  Context (n : Z) (Hn : 0 <= n).
  Let ends := end_positions n.
  Lemma start0_le i j : 0 <= i -> i <= j -> j <= 8 -> start0 ends i <= start0 ends j.
  Proof.
    intros Hi Hij Hj.
    assert (A : forall k, 0 <= k < 8 -> start0 ends k <= start0 ends (k + 1)).
    { intros k Hk. assert (k = 0 \/ k = 1 \/ k = 2 \/ k = 3 \/ k = 4 \/ k = 5 \/ k = 6 \/ k = 7) as Hk' by lia. clear Hk.
      assert (Half : forall x y, x <= y -> x <= x + (y - x) / 2 <= y) by (intros; Z.div_mod_to_equations; lia).
      assert (H3 : 0 <= n / 2 <= n) by (Z.div_mod_to_equations; lia).
      unfold ends, end_positions. set (e3 := n / 2) in *.
      pose proof (Half e3 n ltac:(lia)) as H5. set (e5 := e3 + (n - e3) / 2) in *.
      pose proof (Half 0 e3 ltac:(lia)) as H1. set (e1 := 0 + (e3 - 0) / 2) in *.
      pose proof (Half e5 n ltac:(lia)) as H6. set (e6 := e5 + (n - e5) / 2) in *.
      pose proof (Half e3 e5 ltac:(lia)) as H4. set (e4 := e3 + (e5 - e3) / 2) in *.
      pose proof (Half e1 e3 ltac:(lia)) as H2. set (e2 := e1 + (e3 - e1) / 2) in *.
      pose proof (Half 0 e1 ltac:(lia)) as H0. set (e0 := 0 + (e1 - 0) / 2) in *.
      clearbody e0 e1 e2 e3 e4 e5 e6. unfold start0.
      destruct Hk' as [-> |[-> |[-> |[-> |[-> |[-> |[-> | ->]]]]]]]; cbv -[Z.le]; lia. }
    replace j with (i + Z.of_nat (Z.to_nat (j - i))) in * by lia. clear Hij. generalize dependent (Z.to_nat (j - i)). intros m.
    induction m as [|m IH]; intros H; [replace (i + Z.of_nat 0) with i by lia; lia|]. etransitivity; [apply IH; lia|].
    replace (i + Z.of_nat (S m)) with (i + Z.of_nat m + 1) by lia. apply A. lia.
  Qed.
  Lemma start0_0 : start0 ends 0 = 0.
  Proof. reflexivity. Qed.
  Lemma start0_8 : start0 ends 8 = n.
  Proof. reflexivity. Qed.
  Lemma pow_node l k : node l k -> 0 <= k * 2 ^ Z.of_nat l /\ (k + 1) * 2 ^ Z.of_nat l <= 8.
  Proof.
    clear. intros [Hl Hk]. assert (2 ^ (3 - Z.of_nat l) * 2 ^ Z.of_nat l = 8). { rewrite <- Z.pow_add_r by lia. replace (3 - Z.of_nat l + Z.of_nat l) with 3 by lia. reflexivity. }
    assert (0 < 2 ^ Z.of_nat l) by (apply Z.pow_pos_nonneg; lia). nia.
  Qed.
  Lemma start_bounds l k : node l k -> 0 <= start ends l k <= start ends l (k + 1) /\ start ends l (k + 1) <= n.
  Proof.
    intros H. pose proof (pow_node l k H). unfold start. rewrite <- start0_0, <- start0_8 at 1.
    repeat split; apply start0_le; nia.
  Qed.
  Lemma start_mid l k : node (S l) k -> start ends l (2 * k + 1) = start ends (S l) k + (start ends (S l) (k + 1) - start ends (S l) k) / 2.
  Proof.
    intros H. nodes_cases H; first [reflexivity | change (n / 2 = 0 + (n - 0) / 2); now rewrite Z.sub_0_r].
  Qed.
  Lemma start_child0 l k : start ends l (2 * k) = start ends (S l) k.
  Proof. clear. unfold start. f_equal. rewrite Nat2Z.inj_succ, Z.pow_succ_r by lia. lia. Qed.
  Lemma start_child2 l k : start ends l (2 * k + 2) = start ends (S l) (k + 1).
  Proof. clear. rewrite <- start_child0. f_equal. lia. Qed.
  Lemma range_ok l k i : node l k -> ixok l k i -> call_range ends n l i = Some (start ends l k, start ends l (k + 1)).
  Proof.
    clear Hn. intros H Hi. nodes_cases H; cbn in Hi; subst; reflexivity.
  Qed.
  Lemma disjoint_blocks l k l' k' : node l k -> node l' k' -> (k + 1) * 2 ^ Z.of_nat l <= k' * 2 ^ Z.of_nat l' -> start ends l (k + 1) <= start ends l' k'.
  Proof. intros H H' Hle. pose proof (pow_node l k H). pose proof (pow_node l' k' H'). unfold start. apply start0_le; nia. Qed.
End Blocks.

Lemma node_child l k : node (S l) k -> node l (2 * k) /\ node l (2 * k + 1).
Proof.
  unfold node. intros [Hl Hk]. replace (3 - Z.of_nat l) with (Z.succ (3 - Z.of_nat (S l))) by lia. rewrite Z.pow_succ_r by lia. lia.
Qed.
Lemma node_parent l k : node l k -> (l < 3)%nat -> node (S l) (k / 2).
Proof.
  unfold node. intros [Hl Hk] H3. replace (3 - Z.of_nat l) with (Z.succ (3 - Z.of_nat (S l))) in Hk by lia. rewrite Z.pow_succ_r in Hk by lia.
  Z.div_mod_to_equations; lia.
Qed.

Section ParP.
  Context {E : Type} (cmp : E -> E -> option bool) (lt : E -> E -> bool) (sw : strict_weak lt) (check : bool) (orig : list E).
  Context (Hcmp : compares lt cmp orig).
  Let n := Z.of_nat (length orig).
  Let ends := end_positions n.
  Notation lo l k := (start ends l k).
  Notation hi l k := (start ends l (k + 1)).
  Let Hn : 0 <= n. Proof. unfold n; lia. Qed.

  Definition pc_of (l : nat) (k : Z) (s : status) (p : pc) : Prop :=
    match s with
    | CALLING t r => exists i, ixok l k i /\ p = Call l i r
    | ORING t => (l < 3)%nat /\ exists i, ixok l k i /\ p = Or l i
    | _ => False
    end.

  Record inv (st : nat -> Z -> status) (s : pstate E) : Prop := {
    i_own : forall l k t, node l k -> owner (st l k) = Some t -> exists p, nth_error (ps_pc s) t = Some p /\ pc_of l k (st l k) p;
    i_pc : forall t p, nth_error (ps_pc s) t = Some p -> p <> Fin8 -> exists l k, node l k /\ owner (st l k) = Some t /\ pc_of l k (st l k) p;
    i_len : length (ps_pc s) = 8%nat;
    i_level : forall l, (l < 3)%nat -> exists lv, nth_error (ps_level s) l = Some lv /\ forall k, node l k -> (Z.testbit lv k = true <-> st l k = SET);
    i_up : forall l k, node (S l) k -> (st (S l) k <> NS <-> st l (2 * k) = SET /\ st l (2 * k + 1) = SET);
    i_leaf : forall k, node 0 k -> st 0%nat k <> NS;
    i_arr : length (ps_arr s) = length orig /\ (forall x, In x (ps_arr s) -> In x orig);
    i_ws : length (ps_ws s) = length orig;
    i_todo : forall k, node 0 k -> done (st 0%nat k) = false -> seg (ps_arr s) (lo 0 k) (hi 0 k) = seg orig (lo 0 k) (hi 0 k);
    i_done : forall l k, node l k -> done (st l k) = true -> ((l < 3)%nat -> done (st (S l) (k / 2)) = false) ->
      stable_sort lt (seg orig (lo l k) (hi l k)) (seg (ps_arr s) (lo l k) (hi l k)) }.

  (* one block per owner *)
  Lemma pc_of_inj l k s l' k' s' p : node l k -> node l' k' -> pc_of l k s p -> pc_of l' k' s' p -> l = l' /\ k = k'.
  Proof.
    clear. intros [Hl Hk] [Hl' Hk'] H H'. destruct s as [|t r|t|], s' as [|t' r'|t'|]; simpl in H, H'; try tauto.
    - destruct H as (i & Hi & ->), H' as (i' & Hi' & Hp). injection Hp as <- <- <-. split; auto.
      destruct l as [|[|[|[|]]]]; cbn [ixok] in Hi, Hi'; try lia.
    - destruct H as (i & Hi & ->), H' as (? & i' & Hi' & Hp). discriminate.
    - destruct H as (? & i & Hi & ->), H' as (i' & Hi' & Hp). discriminate.
    - destruct H as (H3 & i & Hi & ->), H' as (H3' & i' & Hi' & Hp). injection Hp as <- <-. split; auto.
      destruct l as [|[|[|[|]]]]; cbn [ixok] in Hi, Hi'; try lia.
  Qed.
  Lemma own_inj st s l k l' k' t : inv st s -> node l k -> node l' k' -> owner (st l k) = Some t -> owner (st l' k') = Some t -> l = l' /\ k = k'.
  Proof.
    clear. intros I N N' O O'. destruct (i_own _ _ I l k t N O) as (p & P & Q). destruct (i_own _ _ I l' k' t N' O') as (p' & P' & Q').
    rewrite P in P'. injection P' as <-. eapply pc_of_inj; eauto.
  Qed.

  (* everything under a started block is finished; everything over an unfinished one is not started *)
  Lemma below st s : inv st s -> forall d l k l' k', (l' + d = l)%nat -> (0 < d)%nat -> node l k -> node l' k' -> k' / 2 ^ Z.of_nat d = k -> st l k <> NS -> st l' k' = SET.
  Proof.
    clear Hcmp. intros I. induction d as [|d IH]; intros l k l' k' Hl Hd N N' Hk Hs; [lia|]. destruct d as [|d].
    - assert (l = S l') as -> by lia. change (2 ^ Z.of_nat 1) with 2 in Hk. apply (i_up _ _ I) in Hs; auto. destruct Hs as [A B].
      assert (k' = 2 * k \/ k' = 2 * k + 1) as [-> | ->] by (Z.div_mod_to_equations; lia); auto.
    - destruct l as [|l]; [lia|]. destruct (node_child l k N) as [N1 N2]. apply (i_up _ _ I) in Hs as [A B]; auto.
      assert (Hp : 0 < 2 ^ Z.of_nat (S d)) by (apply Z.pow_pos_nonneg; lia).
      assert (Hk2 : k' / 2 ^ Z.of_nat (S d) / 2 = k). { rewrite Z.div_div by lia. rewrite <- Hk. f_equal. rewrite (Nat2Z.inj_succ (S d)), Z.pow_succ_r by lia. lia. }
      assert (k' / 2 ^ Z.of_nat (S d) = 2 * k \/ k' / 2 ^ Z.of_nat (S d) = 2 * k + 1) as [C|C] by (Z.div_mod_to_equations; lia).
      + apply (IH l (2 * k) l' k'); auto; try lia. rewrite A. discriminate.
      + apply (IH l (2 * k + 1) l' k'); auto; try lia. rewrite B. discriminate.
  Qed.

  (* a calling block and another block that holds sorted rows are disjoint *)
  Lemma apart st s l k l' k' t r : inv st s -> node l k -> node l' k' -> (l, k) <> (l', k') -> st l k = CALLING t r ->
    (done (st l' k') = true -> (S l', k' / 2) <> (l, k)) -> ((l' < 3)%nat -> done (st l' k') = true -> done (st (S l') (k' / 2)) = false) ->
    (done (st l' k') = true \/ l' = 0%nat /\ done (st l' k') = false \/ exists t' r', st l' k' = CALLING t' r') ->
    hi l k <= lo l' k' \/ hi l' k' <= lo l k.
  Proof.
    clear Hcmp. intros I N N' Hne Hs Hp Ht Hcase.
    destruct (Nat.lt_trichotomy l l') as [Hl|[->|Hl]].
    - (* l' above *)
      set (d := (l' - l)%nat). assert (Hd : 0 < 2 ^ Z.of_nat d) by (apply Z.pow_pos_nonneg; lia).
      destruct (Z.eq_dec (k / 2 ^ Z.of_nat d) k') as [Hk|Hk].
      + exfalso. assert (st l k = SET). { apply (below st s I d l' k' l k); auto; try (unfold d; lia). destruct Hcase as [C|[[-> _]|(t' & r' & C)]]; [destruct (st l' k'); discriminate|lia|rewrite C; discriminate]. }
        congruence.
      + destruct (Z.ltb_spec (k / 2 ^ Z.of_nat d) k').
        * left. apply disjoint_blocks; auto. replace (Z.of_nat l') with (Z.of_nat d + Z.of_nat l) by (unfold d; lia). rewrite Z.pow_add_r by lia.
          assert (k + 1 <= k' * 2 ^ Z.of_nat d) by (Z.div_mod_to_equations; nia). assert (0 < 2 ^ Z.of_nat l) by (apply Z.pow_pos_nonneg; lia). nia.
        * right. apply disjoint_blocks; auto. replace (Z.of_nat l') with (Z.of_nat d + Z.of_nat l) by (unfold d; lia). rewrite Z.pow_add_r by lia.
          assert ((k' + 1) * 2 ^ Z.of_nat d <= k) by (Z.div_mod_to_equations; nia). assert (0 < 2 ^ Z.of_nat l) by (apply Z.pow_pos_nonneg; lia). nia.
    - assert (k <> k') by congruence. assert (0 < 2 ^ Z.of_nat l') by (apply Z.pow_pos_nonneg; lia). destruct (Z.ltb_spec k k').
      + left. apply disjoint_blocks; auto. nia.
      + right. apply disjoint_blocks; auto. nia.
    - (* l' below *)
      set (d := (l - l')%nat). assert (Hd : 0 < 2 ^ Z.of_nat d) by (apply Z.pow_pos_nonneg; lia).
      destruct (Z.eq_dec (k' / 2 ^ Z.of_nat d) k) as [Hk|Hk].
      + exfalso. assert (S' : st l' k' = SET). { apply (below st s I d l k l' k'); auto; try (unfold d; lia). rewrite Hs. discriminate. }
        rewrite S' in *. cbn [done] in *. assert (l' < 3)%nat by (destruct N; lia). specialize (Ht ltac:(auto) eq_refl). specialize (Hp eq_refl).
        destruct (Nat.eq_dec (S l') l) as [El|El].
        * apply Hp. assert (d = 1%nat) as D1 by (unfold d; lia). rewrite D1 in Hk. change (2 ^ Z.of_nat 1) with 2 in Hk. congruence.
        * assert (S2 : st (S l') (k' / 2) = SET); [|rewrite S2 in Ht; discriminate].
          apply (below st s I (d - 1)%nat l k); auto; try (unfold d; lia).
          -- apply node_parent; auto.
          -- rewrite Z.div_div by (try apply Z.pow_pos_nonneg; lia). rewrite <- Hk. f_equal. replace (Z.of_nat d) with (Z.succ (Z.of_nat (d - 1))) by (unfold d; lia).
             rewrite Z.pow_succ_r by lia. auto.
          -- rewrite Hs. discriminate.
      + destruct (Z.ltb_spec (k' / 2 ^ Z.of_nat d) k).
        * right. apply disjoint_blocks; auto. replace (Z.of_nat l) with (Z.of_nat d + Z.of_nat l') by (unfold d; lia). rewrite Z.pow_add_r by lia.
          assert (k' + 1 <= k * 2 ^ Z.of_nat d) by (Z.div_mod_to_equations; nia). assert (0 < 2 ^ Z.of_nat l') by (apply Z.pow_pos_nonneg; lia). nia.
        * left. apply disjoint_blocks; auto. replace (Z.of_nat l) with (Z.of_nat d + Z.of_nat l') by (unfold d; lia). rewrite Z.pow_add_r by lia.
          assert ((k + 1) * 2 ^ Z.of_nat d <= k') by (Z.div_mod_to_equations; nia). assert (0 < 2 ^ Z.of_nat l') by (apply Z.pow_pos_nonneg; lia). nia.
  Qed.

  (** ** The calls *)
  Lemma call_ok l s e a ws : 0 <= s <= e -> e <= Z.of_nat (length a) -> length ws = length a -> compares lt cmp (seg a s e) ->
    exists r w, do_call cmp check l s e a ws =
      Some (firstn (Z.to_nat s) a ++ r ++ skipn (Z.to_nat e) a, firstn (Z.to_nat s) ws ++ w ++ skipn (Z.to_nat e) ws) /\
      Z.of_nat (length r) = e - s /\ Z.of_nat (length w) = e - s /\
      (l = 0%nat -> stable_sort lt (seg a s e) r) /\
      (l <> 0%nat -> r = mrg lt (seg a s (s + (e - s) / 2)) (seg a (s + (e - s) / 2) e)).
  Proof.
    intros H1 H2 Hw Hc. pose proof (seg_length a s e H1 H2) as La. pose proof (seg_length ws s e H1) as Lw. rewrite Hw in Lw. specialize (Lw H2).
    assert (Fa : Z.of_nat (length (firstn (Z.to_nat s) a)) = s) by (rewrite firstn_length; lia).
    assert (Fw : Z.of_nat (length (firstn (Z.to_nat s) ws)) = s) by (rewrite firstn_length; lia).
    assert (Sw : ws = firstn (Z.to_nat s) ws ++ seg ws s e ++ skipn (Z.to_nat e) ws) by (apply seg_split; lia).
    destruct l as [|l]; cbn [do_call].
    - destruct (mergesort0_ok cmp lt sw check (S (Z.to_nat (e - s))) (seg a s e) (firstn (Z.to_nat s) a) (skipn (Z.to_nat e) a)
        (firstn (Z.to_nat s) ws) (seg ws s e) (skipn (Z.to_nat e) ws) s s e) as (r & w & E1 & S1 & L1); auto; try lia.
      exists r, w. rewrite <- seg_split, <- Sw in E1 by lia. rewrite E1. split; auto. apply stable_length in S1 as L2. split; [lia|]. split; [lia|].
      split; auto. congruence.
    - set (m := s + (e - s) / 2). assert (Hm : s <= m <= e) by (unfold m; Z.div_mod_to_equations; lia).
      pose proof (seg_length a s m ltac:(lia) ltac:(lia)) as L1. pose proof (seg_length a m e ltac:(lia) ltac:(lia)) as L2.
      assert (Sa : seg a s e = seg a s m ++ seg a m e) by (apply seg_app; lia).
      assert (Hh : length (seg a s m) = ((length (seg a s m) + length (seg a m e)) / 2)%nat).
      { apply Nat2Z.inj. rewrite Nat2Z.inj_div, Nat2Z.inj_add, L1, L2. change (Z.of_nat 2) with 2. unfold m at 1. replace (m - s + (e - m)) with (e - s) by lia. lia. }
      destruct (merge_halves_ok cmp lt (seg a s m) (seg a m e) (firstn (Z.to_nat s) a) (skipn (Z.to_nat e) a)
        (firstn (Z.to_nat s) ws) (seg ws s e) (skipn (Z.to_nat e) ws) s s e) as (w & E1 & L3); auto; try lia.
      + rewrite <- Sa. auto.
      + exists (mrg lt (seg a s m) (seg a m e)), w. rewrite <- Sa, <- seg_split, <- Sw in E1 by lia. rewrite E1. split; auto.
        rewrite mrg_length. split; [lia|]. split; [lia|]. split; [congruence|auto].
  Qed.

  (** ** One step *)
  Definition sup (st : nat -> Z -> status) (l : nat) (k : Z) (v : status) : nat -> Z -> status :=
    fun l' k' => if (l =? l')%nat && (k =? k') then v else st l' k'.
  Lemma sup_eq st l k v : sup st l k v l k = v.
  Proof. clear. unfold sup. now rewrite Nat.eqb_refl, Z.eqb_refl. Qed.
  Lemma sup_neq st l k v l' k' : (l, k) <> (l', k') -> sup st l k v l' k' = st l' k'.
  Proof. clear. intros H. unfold sup. destruct (Nat.eqb_spec l l'), (Z.eqb_spec k k'); subst; cbn [andb]; auto. congruence. Qed.
  Lemma sup_lev st l k v l' k' : l <> l' -> sup st l k v l' k' = st l' k'.
  Proof. clear. intros H. apply sup_neq. congruence. Qed.
  Lemma node_dec (l : nat) (k : Z) l' k' : {(l, k) = (l', k')} + {(l, k) <> (l', k')}.
  Proof. clear. destruct (Nat.eq_dec l l'), (Z.eq_dec k k'); subst; auto; right; congruence. Qed.

  Definition wt (st : nat -> Z -> status) : nat := nsum (map (fun p => weight (st (fst p) (snd p))) nodes).
  Lemma nsum_lt {A} (f g : A -> nat) l x : In x l -> (forall y, In y l -> (f y <= g y)%nat) -> (f x < g x)%nat -> (nsum (map f l) < nsum (map g l))%nat.
  Proof.
    clear. assert (Le : forall l, (forall y, In y l -> (f y <= g y)%nat) -> (nsum (map f l) <= nsum (map g l))%nat).
    { induction l0 as [|y l0 IH]; intros H; cbn [map nsum fold_right] in *; [auto|]. unfold nsum in *. simpl. specialize (IH (fun z Hz => H z (or_intror Hz))). specialize (H y (or_introl eq_refl)). lia. }
    induction l as [|y l IH]; intros Hx H L; [destruct Hx|]. unfold nsum in *. cbn [map fold_right] in *.
    specialize (Le l (fun z Hz => H z (or_intror Hz))). pose proof (H y (or_introl eq_refl)). destruct Hx as [->|Hx].
    - simpl. lia.
    - specialize (IH Hx (fun z Hz => H z (or_intror Hz)) L). simpl. lia.
  Qed.
  Lemma wt_lt st st' l k : node l k -> (forall l' k', (weight (st' l' k') <= weight (st l' k'))%nat) -> (weight (st' l k) < weight (st l k))%nat -> (wt st' < wt st)%nat.
  Proof. clear. intros N H1 H2. unfold wt. apply nsum_lt with (x := (l, k)); auto. now apply node_in. Qed.

  (* steps that change neither the array nor which blocks are done *)
  Lemma inv_same st s st' s' : inv st s -> ps_arr s' = ps_arr s -> ps_ws s' = ps_ws s -> (forall l k, done (st' l k) = done (st l k)) ->
    (forall l k t, node l k -> owner (st' l k) = Some t -> exists p, nth_error (ps_pc s') t = Some p /\ pc_of l k (st' l k) p) ->
    (forall t p, nth_error (ps_pc s') t = Some p -> p <> Fin8 -> exists l k, node l k /\ owner (st' l k) = Some t /\ pc_of l k (st' l k) p) ->
    length (ps_pc s') = 8%nat ->
    (forall l, (l < 3)%nat -> exists lv, nth_error (ps_level s') l = Some lv /\ forall k, node l k -> (Z.testbit lv k = true <-> st' l k = SET)) ->
    (forall l k, node (S l) k -> (st' (S l) k <> NS <-> st' l (2 * k) = SET /\ st' l (2 * k + 1) = SET)) ->
    (forall k, node 0 k -> st' 0%nat k <> NS) -> inv st' s'.
  Proof.
    clear. intros I Ea Ew Hd H1 H2 H3 H4 H5 H6. constructor; auto; rewrite ?Ea, ?Ew.
    - apply (i_arr _ _ I).
    - apply (i_ws _ _ I).
    - intros k N D. rewrite Hd in D. now apply (i_todo _ _ I).
    - intros l k N D P. rewrite Hd in D. apply (i_done _ _ I); auto. intros L. specialize (P L). now rewrite Hd in P.
  Qed.

  Lemma step_start st s t l k i : inv st s -> node l k -> st l k = CALLING t false -> ixok l k i -> nth_error (ps_pc s) t = Some (Call l i false) ->
    exists st' s', par_step cmp check ends n s t = Some s' /\ inv st' s' /\ (wt st' < wt st)%nat /\ forall l' k', done (st' l' k') = done (st l' k').
  Proof.
    clear Hcmp. intros I N Hs Hi Hp. set (st' := sup st l k (CALLING t true)).
    exists st'. eexists. unfold par_step. rewrite Hp. split; [reflexivity|]. split; [|split].
    - assert (V : forall l' k', st' l' k' = st l' k' \/ ((l, k) = (l', k') /\ st' l' k' = CALLING t true /\ st l' k' = CALLING t false)).
      { intros l' k'. destruct (node_dec l k l' k') as [Heq|Hne]; [|left; now apply sup_neq]. right. split; auto. injection Heq as <- <-. unfold st'. now rewrite sup_eq. }
      assert (T : (t < 8)%nat). { rewrite <- (i_len _ _ I). eapply nth_error_Some_lt; eauto. }
      apply (inv_same st s); auto; cbn [ps_pc ps_arr ps_ws ps_level].
      + intros l' k'. destruct (V l' k') as [->|(_ & -> & ->)]; auto.
      + intros l' k' t' N' O. destruct (V l' k') as [Ev|(Heq & Ev & _)]; rewrite Ev in *.
        * assert (t' <> t). { intros ->. destruct (own_inj st s l k l' k' t) as [<- <-]; auto; [rewrite Hs; auto|]. unfold st' in Ev. rewrite sup_eq, Hs in Ev. discriminate. }
          destruct (i_own _ _ I l' k' t' N' O) as (p & P & Q). exists p. split; auto. rewrite nth_error_upd_neq by auto. auto.
        * injection Heq as <- <-. injection O as <-. eexists. split; [apply nth_error_upd_eq; rewrite (i_len _ _ I); auto|]. exists i. auto.
      + intros t' p Hp' Hf. destruct (Nat.eq_dec t' t) as [->|Ht].
        * rewrite nth_error_upd_eq in Hp' by (rewrite (i_len _ _ I); auto). injection Hp' as <-. exists l, k. unfold st'. rewrite sup_eq. split; auto. split; auto. exists i. auto.
        * rewrite nth_error_upd_neq in Hp' by auto. destruct (i_pc _ _ I t' p Hp' Hf) as (l' & k' & N' & O & Q). exists l', k'.
          destruct (V l' k') as [->|(_ & _ & Ev)]; auto. rewrite Ev in O. injection O as O. congruence.
      + rewrite length_upd. apply (i_len _ _ I).
      + intros l' L. destruct (i_level _ _ I l' L) as (lv & P & Q). exists lv. split; auto. intros k' N'. rewrite Q by auto.
        destruct (V l' k') as [->|(_ & -> & ->)]; [tauto|]. split; discriminate.
      + assert (W : forall l' k', (st' l' k' = SET <-> st l' k' = SET) /\ (st' l' k' <> NS <-> st l' k' <> NS)).
        { intros l' k'. destruct (V l' k') as [->|(_ & -> & ->)]; [tauto|]. split; split; discriminate. }
        intros l' k' N'. rewrite (proj2 (W (S l') k')), (proj1 (W l' (2 * k'))), (proj1 (W l' (2 * k' + 1))). now apply (i_up _ _ I).
      + intros k' N'. destruct (V 0%nat k') as [->|(_ & -> & _)]; [now apply (i_leaf _ _ I)|discriminate].
    - apply (wt_lt st st' l k N); unfold st'; [|rewrite sup_eq, Hs; simpl; lia].
      intros l' k'. destruct (node_dec l k l' k') as [Heq|Hne]; [injection Heq as <- <-; rewrite sup_eq, Hs; simpl; lia|now rewrite sup_neq].
    - intros l' k'. unfold st'. destruct (node_dec l k l' k') as [Heq|Hne]; [injection Heq as <- <-; now rewrite sup_eq, Hs|now rewrite sup_neq].
  Qed.

  Lemma step_call st s t l k i : inv st s -> node l k -> st l k = CALLING t true -> ixok l k i -> nth_error (ps_pc s) t = Some (Call l i true) ->
    exists st' s', par_step cmp check ends n s t = Some s' /\ inv st' s' /\ (wt st' < wt st)%nat /\ done (st l k) = false /\
      forall l' k', done (st' l' k') = true <-> (l, k) = (l', k') \/ done (st l' k') = true.
  Proof.
    intros I N Hs Hi Hp. unfold par_step. rewrite Hp. rewrite (range_ok n l k i N Hi : call_range ends n l i = Some (lo l k, hi l k)).
    pose proof (start_bounds n Hn l k N) as [B1 B2]. fold ends in B1, B2.
    destruct (i_arr _ _ I) as [La Ia]. pose proof (i_ws _ _ I) as Lw.
    assert (Hc : compares lt cmp (ps_arr s)) by (eapply compares_sub; eauto).
    destruct (call_ok l (lo l k) (hi l k) (ps_arr s) (ps_ws s)) as (r & w & E1 & Lr & Lw' & R0 & R1); try lia.
    { eapply compares_sub; [|exact Hc]. intros x. apply seg_In. }
    rewrite E1. set (a' := firstn (Z.to_nat (lo l k)) (ps_arr s) ++ r ++ skipn (Z.to_nat (hi l k)) (ps_arr s)) in *.
    set (ws' := firstn (Z.to_nat (lo l k)) (ps_ws s) ++ w ++ skipn (Z.to_nat (hi l k)) (ps_ws s)) in *.
    set (v := if (l =? 3)%nat then SET else ORING t). set (st' := sup st l k v).
    assert (Vd : done v = true) by (unfold v; destruct (l =? 3)%nat; auto).
    assert (Vn : v <> NS) by (unfold v; destruct (l =? 3)%nat; discriminate).
    assert (T : (t < 8)%nat). { rewrite <- (i_len _ _ I). eapply nth_error_Some_lt; eauto. }
    assert (Sr : seg a' (lo l k) (hi l k) = r) by (apply seg_mid; [rewrite firstn_length; lia|lia]).
    (* the sorted rows of the block *)
    assert (Hstable : stable_sort lt (seg orig (lo l k) (hi l k)) r).
    { destruct l as [|l].
      - rewrite <- (i_todo _ _ I k N) by (rewrite Hs; auto). auto.
      - destruct (node_child l k N) as [N1 N2]. assert (C : st l (2 * k) = SET /\ st l (2 * k + 1) = SET) by (apply (i_up _ _ I); auto; rewrite Hs; discriminate).
        destruct C as [C1 C2]. pose proof (start_mid n l k N) as M. fold ends in M. rewrite R1 by auto. rewrite <- M.
        assert (Lm : lo (S l) k <= start ends l (2 * k + 1) <= hi (S l) k) by (rewrite M; Z.div_mod_to_equations; lia).
        rewrite (seg_app orig _ (start ends l (2 * k + 1))) by (try exact B2; lia).
        apply mrg_stable; auto.
        + pose proof (i_done _ _ I l (2 * k) N1) as D. rewrite (start_child0 n l k : start ends l (2 * k) = start ends (S l) k) in D. apply D.
          * now rewrite C1.
          * intros _. replace (2 * k / 2) with k by (Z.div_mod_to_equations; lia). now rewrite Hs.
        + pose proof (i_done _ _ I l (2 * k + 1) N2) as D. replace (2 * k + 1 + 1) with (2 * k + 2) in D by lia.
          rewrite (start_child2 n l k : start ends l (2 * k + 2) = start ends (S l) (k + 1)) in D. apply D.
          * now rewrite C2.
          * intros _. replace ((2 * k + 1) / 2) with k by (Z.div_mod_to_equations; lia). now rewrite Hs. }
    exists st'. eexists. split; [reflexivity|]. split; [|split; [|split]].
    - set (p' := match l with 3%nat => Fin8 | _ => Or l i end).
      assert (Hp' : (l < 3)%nat -> p' = Or l i) by (intros; unfold p'; destruct l as [|[|[|[|]]]]; auto; lia).
      constructor; cbn [ps_pc ps_arr ps_ws ps_level].
      + intros l' k' t' N' O. destruct (node_dec l k l' k') as [Heq|Hne].
        * injection Heq as <- <-. unfold st' in *. rewrite sup_eq in *. unfold v in *. destruct (Nat.eqb_spec l 3); [discriminate|]. injection O as <-.
          exists p'. split; [apply nth_error_upd_eq; rewrite (i_len _ _ I); auto|]. assert (l < 3)%nat by (destruct N; lia). split; auto. exists i. split; auto.
        * unfold st' in *. rewrite sup_neq in * by auto. assert (t' <> t). { intros ->. apply Hne. destruct (own_inj st s l k l' k' t) as [<- <-]; auto. rewrite Hs; auto. }
          destruct (i_own _ _ I l' k' t' N' O) as (p & P & Q). exists p. split; auto. rewrite nth_error_upd_neq by auto. auto.
      + intros t' p Ht' Hf. destruct (Nat.eq_dec t' t) as [->|Ht].
        * rewrite nth_error_upd_eq in Ht' by (rewrite (i_len _ _ I); auto). injection Ht' as <-. exists l, k. unfold st'. rewrite sup_eq. split; auto.
          assert (L : (l < 3)%nat). { destruct N as [L _]. assert (l <> 3%nat); [|lia]. intros ->. apply Hf. reflexivity. }
          unfold v. replace (l =? 3)%nat with false by (symmetry; apply Nat.eqb_neq; lia). split; auto. split; auto. exists i. split; auto. 
        * rewrite nth_error_upd_neq in Ht' by auto. destruct (i_pc _ _ I t' p Ht' Hf) as (l' & k' & N' & O & Q). exists l', k'.
          assert ((l, k) <> (l', k')). { intros Heq. injection Heq as <- <-. rewrite Hs in O. injection O as O. congruence. }
          unfold st'. rewrite sup_neq by auto. auto.
      + rewrite length_upd. apply (i_len _ _ I).
      + intros l' L. destruct (i_level _ _ I l' L) as (lv & P & Q). exists lv. split; auto. intros k' N'. rewrite Q by auto.
        destruct (node_dec l k l' k') as [Heq|Hne]; [|unfold st'; now rewrite sup_neq]. injection Heq as <- <-. unfold st'. rewrite sup_eq, Hs. unfold v.
        replace (l =? 3)%nat with false by (symmetry; apply Nat.eqb_neq; lia). split; discriminate.
      + assert (W : forall l' k', (l' < 3)%nat -> (st' l' k' = SET <-> st l' k' = SET)).
        { intros l' k' L. destruct (node_dec l k l' k') as [Heq|Hne]; [|unfold st'; now rewrite sup_neq]. injection Heq as <- <-. unfold st'. rewrite sup_eq, Hs. unfold v.
          replace (l =? 3)%nat with false by (symmetry; apply Nat.eqb_neq; lia). split; discriminate. }
        assert (W2 : forall l' k', st' l' k' <> NS <-> st l' k' <> NS).
        { intros l' k'. destruct (node_dec l k l' k') as [Heq|Hne]; [|unfold st'; now rewrite sup_neq]. injection Heq as <- <-. unfold st'. rewrite sup_eq, Hs. split; auto. discriminate. }
        intros l' k' N'. assert (l' < 3)%nat by (destruct N'; lia). rewrite W2, (W l' (2 * k')), (W l' (2 * k' + 1)) by auto. now apply (i_up _ _ I).
      + intros k' N'. destruct (node_dec l k 0%nat k') as [Heq|Hne]; [injection Heq as -> <-; unfold st'; rewrite sup_eq; auto|]. unfold st'. rewrite sup_neq by auto. now apply (i_leaf _ _ I).
      + split.
        * unfold a'. rewrite !app_length, firstn_length, skipn_length. lia.
        * intros x. unfold a'. rewrite !in_app_iff. intros [Hx|[Hx|Hx]].
          -- apply Ia. rewrite <- (firstn_skipn (Z.to_nat (lo l k)) (ps_arr s)). apply in_app_iff. auto.
          -- apply (stable_in _ _ _ Hstable) in Hx. eapply seg_In; eauto.
          -- apply Ia. rewrite <- (firstn_skipn (Z.to_nat (hi l k)) (ps_arr s)). apply in_app_iff. auto.
      + unfold ws'. rewrite !app_length, firstn_length, skipn_length. lia.
      + intros k0 N0 D0. assert (Hne : (l, k) <> (0%nat, k0)). { intros Heq. injection Heq as -> <-. unfold st' in D0. rewrite sup_eq in D0. congruence. }
        unfold st' in D0. rewrite sup_neq in D0 by auto. rewrite <- (i_todo _ _ I k0 N0 D0).
        pose proof (start_bounds n Hn 0 k0 N0) as [B3 B4]. fold ends in B3, B4.
        assert (A : hi l k <= lo 0 k0 \/ hi 0 k0 <= lo l k). { eapply (apart st s l k 0 k0); eauto; congruence. }
        apply seg_out; try lia.
      + intros l0 k0 N0 D0 P0. destruct (node_dec l k l0 k0) as [Heq|Hne].
        * injection Heq as <- <-. rewrite Sr. auto.
        * unfold st' in D0. rewrite sup_neq in D0 by auto.
          assert (Hpar : (l0 < 3)%nat -> (S l0, k0 / 2) <> (l, k) /\ done (st (S l0) (k0 / 2)) = false).
          { intros L. specialize (P0 L). destruct (node_dec l k (S l0) (k0 / 2)) as [Heq|Hne2].
            - exfalso. injection Heq as -> ->. unfold st' in P0. rewrite sup_eq in P0. congruence.
            - unfold st' in P0. rewrite sup_neq in P0 by auto. split; auto. }
          pose proof (start_bounds n Hn l0 k0 N0) as [B3 B4]. fold ends in B3, B4.
          assert (A : hi l k <= lo l0 k0 \/ hi l0 k0 <= lo l k).
          { eapply (apart st s l k l0 k0); eauto.
            - intros _ Heq. destruct (Nat.ltb_spec l0 3) as [L|L]; [apply (Hpar L); auto|]. injection Heq as <- _. destruct N. lia.
            - intros L _. apply (Hpar L). }
          unfold a'. rewrite seg_out by lia. apply (i_done _ _ I); auto. intros L. apply (Hpar L).
    - apply (wt_lt st st' l k N); unfold st'.
      + intros l' k'. destruct (node_dec l k l' k') as [Heq|Hne]; [injection Heq as <- <-; rewrite sup_eq, Hs; unfold v; destruct (l =? 3)%nat; simpl; lia|now rewrite sup_neq].
      + rewrite sup_eq, Hs. unfold v; destruct (l =? 3)%nat; simpl; lia.
    - now rewrite Hs.
    - intros l' k'. unfold st'. destruct (node_dec l k l' k') as [Heq|Hne]; [injection Heq as <- <-; rewrite sup_eq; tauto|rewrite sup_neq by auto; tauto].
  Qed.

  Lemma or_bit_ok l k i : (l < 3)%nat -> ixok l k i -> or_bit l i = k.
  Proof. clear. intros L. destruct l as [|[|[|]]]; cbn [ixok or_bit]; intros Hi; try lia; subst; Z.div_mod_to_equations; lia. Qed.
  Lemma next_ok l k : (l < 3)%nat -> ixok (S l) (k / 2) (next_index l k).
  Proof. clear. intros L. destruct l as [|[|[|]]]; cbn [ixok next_index]; auto; lia. Qed.
  Lemma buddy_ok l k : (l < 3)%nat -> node l k -> node l (buddy_bit k) /\ buddy_bit k <> k /\
    (forall k0, (k = 2 * k0 /\ buddy_bit k = 2 * k0 + 1) \/ (k = 2 * k0 + 1 /\ buddy_bit k = 2 * k0) \/ k / 2 <> k0).
  Proof.
    clear. intros L [_ Hk]. unfold buddy_bit, node. assert (P : exists q, 2 ^ (3 - Z.of_nat l) = 2 * q).
    { exists (2 ^ (2 - Z.of_nat l)). replace (3 - Z.of_nat l) with (Z.succ (2 - Z.of_nat l)) by lia. rewrite Z.pow_succ_r by lia. auto. }
    destruct P as [q P]. rewrite P in *.
    destruct (Z.odd k) eqn:Ek.
    - apply Z.odd_spec in Ek. destruct Ek as [m ->]. split; [lia|]. split; [lia|]. intros k0. destruct (Z.eq_dec m k0) as [->|]; [right; left; lia|]. right; right. Z.div_mod_to_equations; lia.
    - assert (Ev : Z.even k = true) by (rewrite <- Z.negb_odd, Ek; auto). apply Z.even_spec in Ev. destruct Ev as [m ->]. split; [lia|]. split; [lia|].
      intros k0. destruct (Z.eq_dec m k0) as [->|]; [left; lia|]. right; right. Z.div_mod_to_equations; lia.
  Qed.

  Lemma step_or st s t l k i : inv st s -> node l k -> (l < 3)%nat -> st l k = ORING t -> ixok l k i -> nth_error (ps_pc s) t = Some (Or l i) ->
    exists st' s', par_step cmp check ends n s t = Some s' /\ inv st' s' /\ (wt st' < wt st)%nat /\ forall l' k', done (st' l' k') = done (st l' k').
  Proof.
    clear Hcmp. intros I N L Hs Hi Hp. unfold par_step. rewrite Hp. destruct (i_level _ _ I l L) as (lv & Hlv & Q). rewrite Hlv.
    rewrite (or_bit_ok l k i L Hi). destruct (buddy_ok l k L N) as (Nb & Hb & Hpair).
    assert (T : (t < 8)%nat). { rewrite <- (i_len _ _ I). eapply nth_error_Some_lt; eauto. }
    pose proof (node_parent l k N L) as Np.
    assert (Hps : st (S l) (k / 2) = NS).
    { destruct (st (S l) (k / 2)) eqn:Eq; auto; exfalso.
      all: assert (A : st l (2 * (k / 2)) = SET /\ st l (2 * (k / 2) + 1) = SET) by (apply (i_up _ _ I); auto; congruence).
      all: destruct (Hpair (k / 2)) as [[B _]|[[B _]|B]]; [rewrite <- B in A|rewrite <- B in A|]; try lia; destruct A; congruence. }
    assert (Lvl : forall l', (l' < 3)%nat -> exists lv', nth_error (upd (ps_level s) l (Z.lor lv (Z.shiftl 1 k))) l' = Some lv' /\
      forall k', node l' k' -> (Z.testbit lv' k' = true <-> (st l' k' = SET \/ (l, k) = (l', k')))).
    { intros l' L'. destruct (Nat.eq_dec l' l) as [->|Hne].
      - exists (Z.lor lv (Z.shiftl 1 k)). split; [apply nth_error_upd_eq; eapply nth_error_Some_lt; eauto|]. intros k' N'.
        rewrite Z.lor_spec, Z.shiftl_1_l, Z.pow2_bits_eqb by (destruct N; lia). rewrite Bool.orb_true_iff, Q by auto. destruct (Z.eqb_spec k k').
        + subst. tauto.
        + split; [intros [|]; [auto|discriminate]|]. intros [|Heq]; [auto|]. congruence.
      - destruct (i_level _ _ I l' L') as (lv' & P' & Q'). exists lv'. rewrite nth_error_upd_neq by auto. split; auto. intros k' N'. rewrite Q' by auto.
        split; [auto|]. intros [|Heq]; [auto|]. congruence. }
    destruct (Z.testbit lv (buddy_bit k)) eqn:Eb.
    - apply Q in Eb; auto. set (st1 := sup st l k SET). set (st' := sup st1 (S l) (k / 2) (CALLING t false)).
      assert (V1 : st' l k = SET) by (unfold st', st1; rewrite sup_lev, sup_eq by lia; auto).
      assert (V2 : st' (S l) (k / 2) = CALLING t false) by (unfold st'; now rewrite sup_eq).
      assert (V : forall l' k', (l, k) <> (l', k') -> (S l, k / 2) <> (l', k') -> st' l' k' = st l' k').
      { intros l' k' H1 H2. unfold st', st1. now rewrite !sup_neq. }
      assert (Vc : forall l' k', ((l, k) = (l', k')) \/ ((S l, k / 2) = (l', k')) \/ st' l' k' = st l' k').
      { intros l' k'. destruct (node_dec l k l' k'), (node_dec (S l) (k / 2) l' k'); auto. }
      exists st'. eexists. split; [reflexivity|]. split; [|split].
      + apply (inv_same st s); auto; cbn [ps_pc ps_arr ps_ws ps_level].
        * intros l' k'. destruct (Vc l' k') as [Heq|[Heq| ->]]; auto; injection Heq as <- <-; [rewrite V1, Hs|rewrite V2, Hps]; auto.
        * intros l' k' t' N' O. destruct (Vc l' k') as [Heq|[Heq|Ev]].
          -- injection Heq as <- <-. rewrite V1 in O. discriminate.
          -- injection Heq as <- <-. rewrite V2 in *. injection O as <-. eexists. split; [apply nth_error_upd_eq; rewrite (i_len _ _ I); auto|].
             exists (next_index l k). split; auto. apply next_ok; auto.
          -- rewrite Ev in *. assert (t' <> t). { intros ->. destruct (own_inj st s l k l' k' t) as [<- <-]; auto; [rewrite Hs; auto|]. congruence. }
             destruct (i_own _ _ I l' k' t' N' O) as (p & P & Q'). exists p. split; auto. rewrite nth_error_upd_neq by auto. auto.
        * intros t' p Hp' Hf. destruct (Nat.eq_dec t' t) as [->|Ht].
          -- rewrite nth_error_upd_eq in Hp' by (rewrite (i_len _ _ I); auto). injection Hp' as <-. exists (S l), (k / 2). rewrite V2. split; auto. split; auto.
             exists (next_index l k). split; auto. apply next_ok; auto.
          -- rewrite nth_error_upd_neq in Hp' by auto. destruct (i_pc _ _ I t' p Hp' Hf) as (l' & k' & N' & O & Q'). exists l', k'.
             rewrite V; auto; intros Heq; injection Heq as <- <-; [rewrite Hs in O|rewrite Hps in O]; cbn [owner] in O; congruence.
        * rewrite length_upd. apply (i_len _ _ I).
        * intros l' L'. destruct (Lvl l' L') as (lv' & P & Q'). exists lv'. split; auto. intros k' N'. rewrite Q' by auto.
          destruct (Vc l' k') as [Heq|[Heq|Ev]].
          -- injection Heq as <- <-. rewrite V1. tauto.
          -- injection Heq as <- <-. rewrite V2, Hps. split; [intros [|Heq]; [discriminate|injection Heq; lia]|discriminate].
          -- rewrite Ev. split; [intros [|Heq]; [auto|]|auto]. injection Heq as <- <-. rewrite V1 in Ev. auto.
        * intros l' k' N'. destruct (Vc (S l') k') as [Heq|[Heq|Ev]].
          -- injection Heq as El <-. rewrite <- El. rewrite V1. split; [|discriminate]. intros _.
             assert (A : st (S l') k <> NS) by (rewrite <- El, Hs; discriminate). apply (i_up _ _ I) in A; [|congruence]. rewrite !V; auto; injection; lia.
          -- injection Heq as <- <-. rewrite V2. split; [|discriminate]. intros _.
             assert (C : forall k', k' = k \/ k' = buddy_bit k -> st' l k' = SET). { intros k' [->| ->]; auto. rewrite V; auto; congruence || (injection; lia). }
             destruct (Hpair (k / 2)) as [[B1 B2]|[[B1 B2]|B]]; [split; apply C; lia|split; apply C; lia|lia].
          -- rewrite Ev. rewrite (i_up _ _ I) by auto.
             assert (C : forall k'', k'' = 2 * k' \/ k'' = 2 * k' + 1 -> (st' l' k'' = SET <-> st l' k'' = SET)).
             { intros k'' Hk''. destruct (Vc l' k'') as [Heq|[Heq|Ev2]]; [| |now rewrite Ev2].
               - injection Heq as <- <-. assert (k / 2 = k') by (Z.div_mod_to_equations; lia). subst k'. rewrite V2, Hps in Ev. discriminate.
               - injection Heq as <- <-. rewrite V2, Hps. split; discriminate. }
             rewrite !C by auto. tauto.
        * intros k' N'. destruct (Vc 0%nat k') as [Heq|[Heq|Ev]]; [|discriminate|].
          -- injection Heq as -> <-. rewrite V1. discriminate.
          -- rewrite Ev. now apply (i_leaf _ _ I).
      + apply (wt_lt st st' l k N); [|rewrite V1, Hs; simpl; lia]. intros l' k'. destruct (Vc l' k') as [Heq|[Heq|Ev]]; [| |now rewrite Ev].
        * injection Heq as <- <-. rewrite V1. simpl; lia.
        * injection Heq as <- <-. rewrite V2, Hps. auto.
      + intros l' k'. destruct (Vc l' k') as [Heq|[Heq| ->]]; auto; injection Heq as <- <-; [rewrite V1, Hs|rewrite V2, Hps]; auto.
    - assert (Hbs : st l (buddy_bit k) <> SET) by (intros Hx; apply Q in Hx; auto; congruence). set (st' := sup st l k SET).
      assert (V1 : st' l k = SET) by (unfold st'; apply sup_eq).
      assert (V : forall l' k', (l, k) <> (l', k') -> st' l' k' = st l' k') by (intros; unfold st'; now rewrite sup_neq).
      exists st'. eexists. split; [reflexivity|]. split; [|split].
      + apply (inv_same st s); auto; cbn [ps_pc ps_arr ps_ws ps_level].
        * intros l' k'. destruct (node_dec l k l' k') as [Heq|Hne]; [injection Heq as <- <-; now rewrite V1, Hs|now rewrite V].
        * intros l' k' t' N' O. destruct (node_dec l k l' k') as [Heq|Hne]; [injection Heq as <- <-; rewrite V1 in O; discriminate|].
          rewrite V in * by auto. assert (t' <> t). { intros ->. apply Hne. destruct (own_inj st s l k l' k' t) as [<- <-]; auto; rewrite Hs; auto. }
          destruct (i_own _ _ I l' k' t' N' O) as (p & P & Q'). exists p. split; auto. rewrite nth_error_upd_neq by auto. auto.
        * intros t' p Hp' Hf. destruct (Nat.eq_dec t' t) as [->|Ht].
          -- rewrite nth_error_upd_eq in Hp' by (rewrite (i_len _ _ I); auto). congruence.
          -- rewrite nth_error_upd_neq in Hp' by auto. destruct (i_pc _ _ I t' p Hp' Hf) as (l' & k' & N' & O & Q'). exists l', k'.
             rewrite V; auto. intros Heq; injection Heq as <- <-. rewrite Hs in O. cbn [owner] in O; congruence.
        * rewrite length_upd. apply (i_len _ _ I).
        * intros l' L'. destruct (Lvl l' L') as (lv' & P & Q'). exists lv'. split; auto. intros k' N'. rewrite Q' by auto.
          destruct (node_dec l k l' k') as [Heq|Hne]; [injection Heq as <- <-; rewrite V1; tauto|]. rewrite V by auto. tauto.
        * intros l' k' N'. destruct (node_dec l k (S l') k') as [Heq|Hne].
          -- injection Heq as El <-. rewrite <- El. rewrite V1. split; [|discriminate]. intros _.
             assert (A : st (S l') k <> NS) by (rewrite <- El, Hs; discriminate). apply (i_up _ _ I) in A; [|congruence]. rewrite !V; auto; injection; lia.
          -- rewrite (V (S l') k') by auto. destruct (node_dec (S l) (k / 2) (S l') k') as [Heq|Hne2].
             ++ injection Heq as <- <-. rewrite Hps. split; [congruence|]. intros [A B]. exfalso. apply Hbs.
                destruct (Hpair (k / 2)) as [[B1 B2]|[[B1 B2]|B1]]; [| |lia]; rewrite B2.
                ** rewrite <- B. symmetry. apply V. intros Heq. pose proof (f_equal snd Heq) as Hq. cbn [snd] in Hq. lia.
                ** rewrite <- A. symmetry. apply V. intros Heq. pose proof (f_equal snd Heq) as Hq. cbn [snd] in Hq. lia.
             ++ rewrite (i_up _ _ I) by auto. assert (C : forall k'', k'' = 2 * k' \/ k'' = 2 * k' + 1 -> st' l' k'' = st l' k'').
                { intros k'' Hk''. apply V. intros Heq. injection Heq as <- <-. apply Hne2. f_equal. Z.div_mod_to_equations; lia. }
                rewrite !C by auto. tauto.
        * intros k' N'. destruct (node_dec l k 0%nat k') as [Heq|Hne]; [injection Heq as -> <-; rewrite V1; discriminate|]. rewrite V by auto. now apply (i_leaf _ _ I).
      + apply (wt_lt st st' l k N); [|rewrite V1, Hs; simpl; lia]. intros l' k'. destruct (node_dec l k l' k') as [Heq|Hne]; [|now rewrite V].
        injection Heq as <- <-. rewrite V1. simpl; lia.
      + intros l' k'. destruct (node_dec l k l' k') as [Heq|Hne]; [injection Heq as <- <-; now rewrite V1, Hs|now rewrite V].
  Qed.

  Lemma step_ok st s t p : inv st s -> nth_error (ps_pc s) t = Some p -> p <> Fin8 ->
    exists st' s', par_step cmp check ends n s t = Some s' /\ inv st' s' /\ (wt st' < wt st)%nat /\
      match p with
      | Call l i true => exists k, node l k /\ ixok l k i /\ st l k = CALLING t true /\ forall l' k', done (st' l' k') = true <-> (l, k) = (l', k') \/ done (st l' k') = true
      | _ => forall l' k', done (st' l' k') = done (st l' k')
      end.
  Proof.
    intros I Hp Hf. destruct (i_pc _ _ I t p Hp Hf) as (l & k & N & O & Q). destruct (st l k) as [|t' r|t'|] eqn:Hs; simpl in O, Q; try discriminate; injection O as ->.
    - destruct Q as (i & Hi & ->). destruct r; [|eapply step_start; eauto].
      destruct (step_call st s t l k i) as (st' & s' & E1 & E2 & E3 & _ & E4); auto. exists st', s'. split; auto. split; auto. split; auto. exists k. auto.
    - destruct Q as (L & i & Hi & ->). eapply step_or; eauto.
  Qed.

  Definition st0 : nat -> Z -> status := fun l k => match l with O => CALLING (Z.to_nat k) false | _ => NS end.
  Lemma init_ok ws : length ws = length orig -> inv st0 (par_init orig ws).
  Proof.
    clear Hcmp. intros Hw. constructor; cbn [par_init ps_pc ps_arr ps_ws ps_level].
    - intros [|l] k t N O; [|discriminate]. injection O as <-. destruct N as [_ Hk]. change (2 ^ (3 - Z.of_nat 0)) with 8 in Hk.
      exists (Call 0 k false). split; [|exists k; split; [reflexivity|auto]].
      rewrite nth_error_map, nth_error_seq. replace (Z.to_nat k <? 8)%nat with true by (symmetry; apply Nat.ltb_lt; lia). cbn [option_map]. do 2 f_equal. lia.
    - intros t p Hp Hf. rewrite nth_error_map, nth_error_seq in Hp. destruct (Nat.ltb_spec t 8); [|discriminate]. injection Hp as <-.
      exists 0%nat, (Z.of_nat t). split; [split; [lia|change (2 ^ (3 - Z.of_nat 0)) with 8; lia]|]. cbn [st0 owner]. rewrite Nat2Z.id. split; auto. exists (Z.of_nat t). split; [reflexivity|auto].
    - reflexivity.
    - intros l L. exists 0. split; [destruct l as [|[|[|]]]; auto; lia|]. intros k _. rewrite Z.bits_0. destruct l; split; discriminate.
    - intros l k N. split; [intros H; exfalso; now apply H|]. intros [A _]. destruct l; discriminate.
    - intros k N. discriminate.
    - auto.
    - auto.
    - auto.
    - intros [|l] k N D; discriminate.
  Qed.

  Lemma run_inv ts : forall st s s', inv st s -> par_run cmp check ends n s ts = Some s' -> exists st', inv st' s' /\ (length ts + wt st' <= wt st)%nat.
  Proof.
    induction ts as [|t ts IH]; intros st s s' I H.
    - injection H as <-. exists st. split; auto.
    - cbn [par_run] in H. destruct (par_step cmp check ends n s t) as [s1|] eqn:E1; [|discriminate].
      destruct (nth_error (ps_pc s) t) as [p|] eqn:Ep; [|unfold par_step in E1; rewrite Ep in E1; discriminate].
      assert (p <> Fin8) by (intros ->; unfold par_step in E1; rewrite Ep in E1; discriminate).
      destruct (step_ok st s t p I Ep H0) as (st1 & s1' & E2 & I1 & W & _). rewrite E1 in E2. injection E2 as <-.
      destruct (IH st1 s1 s' I1 H) as (st2 & I2 & W2). exists st2. split; auto. simpl. lia.
  Qed.

  (* the calls that have ended are the blocks that are done *)
  Lemma block_ix l k i : node l k -> ixok l k i -> block_of l i = (l, k).
  Proof.
    clear. intros N H. unfold block_of. destruct l as [|[|[|l]]]; cbn [ixok] in H; subst; f_equal; try (Z.div_mod_to_equations; lia).
    destruct N as [N1 N2]. assert (l = O) by lia. subst. change (2 ^ (3 - Z.of_nat 3)) with 1 in N2. lia.
  Qed.
  Definition calls_done (st : nat -> Z -> status) (tr : list (nat * Z)) : Prop :=
    NoDup tr /\ (forall l k, In (l, k) tr -> node l k) /\ (forall l k, node l k -> (In (l, k) tr <-> done (st l k) = true)) /\
    (forall p l k r, tr = p ++ (S l, k) :: r -> In (l, 2 * k) p /\ In (l, 2 * k + 1) p).
  Lemma run_calls ts : forall st s s' tr, inv st s -> calls_done st tr -> par_run cmp check ends n s ts = Some s' ->
    exists st', inv st' s' /\ calls_done st' (tr ++ par_calls cmp check ends n s ts).
  Proof.
    induction ts as [|t ts IH]; intros st s s' tr I D H.
    - injection H as <-. exists st. cbn [par_calls]. rewrite app_nil_r. auto.
    - cbn [par_run] in H. destruct (par_step cmp check ends n s t) as [s1|] eqn:E1; [|discriminate].
      destruct (nth_error (ps_pc s) t) as [p|] eqn:Ep; [|unfold par_step in E1; rewrite Ep in E1; discriminate].
      assert (Hf : p <> Fin8) by (intros ->; unfold par_step in E1; rewrite Ep in E1; discriminate).
      destruct (step_ok st s t p I Ep Hf) as (st1 & s1' & E2 & I1 & _ & M). rewrite E1 in E2. injection E2 as <-.
      cbn [par_calls]. rewrite Ep, E1, app_assoc. apply (IH st1 s1); auto. destruct D as (D1 & D2 & D3 & D4).
      assert (Same : (forall l' k', done (st1 l' k') = done (st l' k')) -> calls_done st1 (tr ++ [])).
      { intros Sd. rewrite app_nil_r. split; auto. split; auto. split; auto. intros l k N. rewrite Sd. auto. }
      destruct p as [l i [|]|l i|]; auto. destruct M as (k & N & Hi & Hs & M). rewrite (block_ix l k i N Hi).
      assert (Nin : ~ In (l, k) tr) by (intros X; apply D3 in X; auto; rewrite Hs in X; discriminate).
      split; [|split; [|split]].
      + apply (Permutation_NoDup (Permutation_cons_append tr (l, k))). now constructor.
      + intros l' k' X. apply in_app_iff in X as [X|[X|[]]]; auto. injection X as <- <-. auto.
      + intros l' k' N'. rewrite M, in_app_iff, D3 by auto. simpl. tauto.
      + intros q l' k' r Eq. destruct r as [|x r] using rev_ind.
        * apply app_inj_tail in Eq as [-> X]. injection X as -> ->. destruct (node_child l' k' N) as [N1 N2].
          assert (C : st l' (2 * k') = SET /\ st l' (2 * k' + 1) = SET) by (apply (i_up _ _ I); auto; rewrite Hs; discriminate).
          rewrite !D3 by auto. destruct C as [-> ->]. auto.
        * clear IHr. change (q ++ (S l', k') :: r ++ [x]) with (q ++ ((S l', k') :: r) ++ [x]) in Eq. rewrite app_assoc in Eq.
          apply app_inj_tail in Eq as [Eq _]. eauto.
  Qed.

  (* the calls that run at the same time *)
  Lemma calls_apart st s t1 t2 l1 i1 l2 i2 : inv st s -> t1 <> t2 ->
    nth_error (ps_pc s) t1 = Some (Call l1 i1 true) -> nth_error (ps_pc s) t2 = Some (Call l2 i2 true) ->
    exists a1 b1 a2 b2, call_range ends n l1 i1 = Some (a1, b1) /\ call_range ends n l2 i2 = Some (a2, b2) /\
      (b1 <= a2 \/ b2 <= a1) /\ 0 <= a1 /\ b1 <= n /\ 0 <= a2 /\ b2 <= n.
  Proof.
    clear Hcmp. intros I Ht P1 P2. destruct (i_pc _ _ I t1 _ P1 ltac:(discriminate)) as (l & k & N & O & Q).
    destruct (i_pc _ _ I t2 _ P2 ltac:(discriminate)) as (l' & k' & N' & O' & Q').
    destruct (st l k) as [|u r|u|] eqn:Hs; simpl in O, Q; try discriminate. 2:{ destruct Q as (_ & i & _ & Q). discriminate. }
    destruct (st l' k') as [|u' r'|u'|] eqn:Hs'; simpl in O', Q'; try discriminate. 2:{ destruct Q' as (_ & i & _ & Q'). discriminate. }
    injection O as ->. injection O' as ->. destruct Q as (i & Hi & Q). destruct Q' as (i' & Hi' & Q'). injection Q as -> <- <-. injection Q' as -> <- <-.
    exists (lo l k), (hi l k), (lo l' k'), (hi l' k'). split; [now apply range_ok|]. split; [now apply range_ok|].
    pose proof (start_bounds n Hn l k N). pose proof (start_bounds n Hn l' k' N'). fold ends in H, H0. split; [|lia].
    eapply (apart st s l k l' k'); eauto.
    - intros Heq. injection Heq as <- <-. rewrite Hs in Hs'. injection Hs' as Hu. congruence.
    - rewrite Hs'. discriminate.
    - rewrite Hs'. discriminate.
  Qed.

  Lemma fin_all st s : inv st s -> forallb is_fin (ps_pc s) = true -> forall l k, node l k -> st l k = SET.
  Proof.
    clear Hcmp. intros I F. rewrite forallb_forall in F.
    assert (NoOwn : forall l k, node l k -> owner (st l k) = None).
    { intros l k N. destruct (owner (st l k)) as [t|] eqn:O; auto. exfalso. destruct (i_own _ _ I l k t N O) as (p & P & Q).
      specialize (F p (nth_error_In _ _ P)). destruct p; try discriminate. destruct (st l k) as [|u r|u|]; simpl in Q; auto.
      - destruct Q as (i & _ & Q). discriminate.
      - destruct Q as (_ & i & _ & Q). discriminate. }
    induction l as [|l IH]; intros k N; pose proof (NoOwn _ _ N) as O.
    - pose proof (i_leaf _ _ I k N). destruct (st 0%nat k); try discriminate; congruence.
    - destruct (node_child l k N) as [N1 N2]. assert (st (S l) k <> NS) by (apply (i_up _ _ I); auto). destruct (st (S l) k); try discriminate; congruence.
  Qed.
  Lemma fin_ok st s : inv st s -> forallb is_fin (ps_pc s) = true -> stable_sort lt orig (ps_arr s).
  Proof.
    clear Hcmp. intros I F. pose proof (fin_all st s I F) as All.
    assert (N : node 3 0) by (split; [lia|change (2 ^ (3 - Z.of_nat 3)) with 1; lia]).
    pose proof (i_done _ _ I 3 0 N) as D. change (lo 3 0) with 0 in D. change (hi 3 0) with n in D. unfold n in D. rewrite seg_all in D.
    rewrite <- (proj1 (i_arr _ _ I)) in D. rewrite seg_all in D. apply D; [now rewrite All|lia].
  Qed.
End ParP.

(** ** The theorems *)
Section ParT.
  Context {E : Type} (cmp : E -> E -> option bool) (lt : E -> E -> bool) (sw : strict_weak lt) (check : bool) (orig ws : list E).
  Context (Hcmp : compares lt cmp orig) (Hw : length ws = length orig).
  Let n := Z.of_nat (length orig).
  Let run := par_run cmp check (end_positions n) n (par_init orig ws).

  Lemma par_sorts ts s : run ts = Some s -> forallb is_fin (ps_pc s) = true -> stable_sort lt orig (ps_arr s).
  Proof. intros H F. destruct (run_inv cmp lt sw check orig Hcmp ts _ _ _ (init_ok lt orig ws Hw) H) as (st & I & _). eapply fin_ok; eauto. Qed.
  Lemma par_no_race ts s t1 t2 l1 i1 l2 i2 : run ts = Some s -> t1 <> t2 ->
    nth_error (ps_pc s) t1 = Some (Call l1 i1 true) -> nth_error (ps_pc s) t2 = Some (Call l2 i2 true) ->
    exists a1 b1 a2 b2, call_range (end_positions n) n l1 i1 = Some (a1, b1) /\ call_range (end_positions n) n l2 i2 = Some (a2, b2) /\
      (b1 <= a2 \/ b2 <= a1) /\ 0 <= a1 /\ b1 <= n /\ 0 <= a2 /\ b2 <= n.
  Proof. intros H. destruct (run_inv cmp lt sw check orig Hcmp ts _ _ _ (init_ok lt orig ws Hw) H) as (st & I & _). eapply calls_apart; eauto. Qed.
  Lemma par_progress ts s t p : run ts = Some s -> nth_error (ps_pc s) t = Some p -> p <> Fin8 -> exists s', run (ts ++ [t]) = Some s'.
  Proof.
    intros H Hp Hf. destruct (run_inv cmp lt sw check orig Hcmp ts _ _ _ (init_ok lt orig ws Hw) H) as (st & I & _).
    destruct (step_ok cmp lt sw check orig Hcmp st s t p I Hp Hf) as (st' & s' & E1 & _ & _). exists s'.
    assert (G : forall ts s0 s1, par_run cmp check (end_positions n) n s0 ts = Some s1 -> par_run cmp check (end_positions n) n s0 (ts ++ [t]) = par_step cmp check (end_positions n) n s1 t).
    { clear. induction ts as [|u ts IH]; intros s0 s1 H; simpl in *.
      - injection H as <-. destruct (par_step cmp check _ n s0 t); auto.
      - destruct (par_step cmp check _ n s0 u) as [s2|]; [|discriminate]. auto. }
    unfold run in *. rewrite (G ts _ s H). exact E1.
  Qed.
  Lemma par_calls_ok ts s : run ts = Some s ->
    let tr := par_calls cmp check (end_positions n) n (par_init orig ws) ts in
    NoDup tr /\ (forall p l k r, tr = p ++ (S l, k) :: r -> In (l, 2 * k) p /\ In (l, 2 * k + 1) p) /\
    (forallb is_fin (ps_pc s) = true -> Permutation tr all_calls).
  Proof.
    intros H tr. destruct (run_calls cmp lt sw check orig Hcmp ts st0 (par_init orig ws) s [] (init_ok lt orig ws Hw)) as (st & I & D1 & D2 & D3 & D4); auto.
    { split; [constructor|]. split; [intros ? ? []|]. split; [|intros [|] ? ? ?; discriminate]. intros l k N. destruct l; simpl; split; [intros []|discriminate|intros []|discriminate]. }
    cbn [app] in *. split; auto. split; auto. intros F. change all_calls with nodes. apply NoDup_Permutation; auto.
    - unfold nodes. repeat (constructor; [simpl; intros X; decompose [or] X; congruence|]). constructor.
    - intros [l k]. split; [intros X; apply node_in, D2; auto|]. intros X.
      assert (N : node l k). { unfold nodes in X. cbn [In] in X. unfold node. repeat destruct X as [X|X]; try (now destruct X); injection X as <- <-; split; try lia; simpl; lia. }
      apply D3; auto. rewrite (fin_all lt orig st s I F); auto.
  Qed.
  Lemma par_bounded ts s : run ts = Some s -> (length ts <= 45)%nat.
  Proof. intros H. destruct (run_inv cmp lt sw check orig Hcmp ts _ _ _ (init_ok lt orig ws Hw) H) as (st & I & L). change (wt st0) with 45%nat in L. lia. Qed.
End ParT.
