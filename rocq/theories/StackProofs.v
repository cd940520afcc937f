(** Memory: regions of the array of a column, and the loops that run from the end. *)
From Verif Require Import Base MemLemmas Inter ConvModel StackModel.
Local Open Scope Z_scope.

Lemma len_nil : len [] = 0. Proof. reflexivity. Qed.
Lemma len_app a b : len (a ++ b) = len a + len b.
Proof. unfold len. rewrite app_length. lia. Qed.
Lemma len_pos a : 0 <= len a. Proof. unfold len. lia. Qed.
Lemma len_repeat x n : len (repeat x n) = Z.of_nat n.
Proof. unfold len. now rewrite repeat_length. Qed.

Lemma firstn_len {A} (a b : list A) n : n = length a -> firstn n (a ++ b) = a.
Proof. intros ->. rewrite firstn_app, firstn_all, Nat.sub_diag. apply app_nil_r. Qed.
Lemma skipn_len {A} (a b : list A) n : n = length a -> skipn n (a ++ b) = b.
Proof. intros ->. now rewrite skipn_app, skipn_all, Nat.sub_diag. Qed.

Lemma load_mid a x b off n : off = len a -> n = len x -> load off n (a ++ x ++ b) = Some x.
Proof.
  intros -> ->. unfold load. rewrite !len_app. pose proof (len_pos a). pose proof (len_pos x). pose proof (len_pos b).
  replace ((0 <=? len a) && (0 <=? len x) && (len a + len x <=? len a + (len x + len b))) with true by lia.
  f_equal. unfold len. rewrite !Nat2Z.id. rewrite skipn_len by auto. now rewrite firstn_len.
Qed.
Lemma store_mid a x y b off : off = len a -> len x = len y -> store off y (a ++ x ++ b) = Some (a ++ y ++ b).
Proof.
  intros -> E. unfold store. rewrite !len_app. pose proof (len_pos a). pose proof (len_pos x). pose proof (len_pos b).
  replace ((0 <=? len a) && (len a + len y <=? len a + (len x + len b))) with true by lia.
  f_equal. rewrite <- E. unfold len. rewrite Nat2Z.id. rewrite firstn_len by auto.
  replace (Z.to_nat (Z.of_nat (length a) + Z.of_nat (length x))) with (length (a ++ x)) by (rewrite app_length; lia).
  rewrite (app_assoc a x b). rewrite skipn_len by auto. reflexivity.
Qed.
Lemma split3 (mem : list Z) off n : 0 <= off -> 0 <= n -> off + n <= len mem ->
  exists a x b, mem = a ++ x ++ b /\ len a = off /\ len x = n.
Proof.
  intros H1 H2 H3. exists (firstn (Z.to_nat off) mem), (firstn (Z.to_nat n) (skipn (Z.to_nat off) mem)), (skipn (Z.to_nat n) (skipn (Z.to_nat off) mem)).
  rewrite !firstn_skipn. split; auto. unfold len in *. rewrite !firstn_length, skipn_length. lia.
Qed.
Lemma store_inv off y mem mem' : store off y mem = Some mem' ->
  exists a x b, mem = a ++ x ++ b /\ len a = off /\ len x = len y /\ mem' = a ++ y ++ b.
Proof.
  intros H. assert (G : 0 <= off /\ off + len y <= len mem).
  { unfold store in H. destruct ((0 <=? off) && (off + len y <=? len mem)) eqn:E; [lia|discriminate]. }
  destruct (split3 mem off (len y)) as (a & x & b & -> & L1 & L2); try lia. { apply len_pos. }
  exists a, x, b. split; auto. split; auto. split; auto.
  rewrite (store_mid a x y b off) in H by auto. now inversion H.
Qed.
Lemma load_inv off n mem x : load off n mem = Some x -> exists a b, mem = a ++ x ++ b /\ len a = off /\ len x = n.
Proof.
  intros H. assert (G : 0 <= off /\ 0 <= n /\ off + n <= len mem).
  { unfold load in H. destruct ((0 <=? off) && (0 <=? n) && (off + n <=? len mem)) eqn:E; [lia|discriminate]. }
  destruct (split3 mem off n) as (a & x' & b & -> & L1 & L2); try lia.
  rewrite (load_mid a x' b off n) in H by auto. inversion H; subst. eauto.
Qed.
Lemma store_len off y mem mem' : store off y mem = Some mem' -> len mem' = len mem.
Proof. intros H. apply store_inv in H as (a & x & b & -> & L1 & L2 & ->). rewrite !len_app. lia. Qed.
Lemma run_step_len s mem mem' : run_step s mem = Some mem' -> len mem' = len mem.
Proof.
  destruct s; simpl.
  - apply store_len.
  - destruct (load src n mem); [|discriminate]. destruct (f l); [|discriminate]. apply store_len.
Qed.
Lemma run_len l : forall mem mem', run l mem = Some mem' -> len mem' = len mem.
Proof.
  induction l as [|s l IH]; simpl; intros mem mem' H. { now inversion H. }
  destruct (run_step s mem) eqn:E; [|discriminate]. apply IH in H. apply run_step_len in E. lia.
Qed.
Lemma run_app l r mem : run (l ++ r) mem = match run l mem with Some m => run r m | None => None end.
Proof. revert mem. induction l as [|s l IH]; simpl; intros mem; auto. destruct (run_step s mem); auto. Qed.

(** ** Regions *)
Definition shift (o : Z) (s : step) : step :=
  match s with Store off bs => Store (o + off) bs | Move src n dst f => Move (o + src) n (o + dst) f end.

Lemma store_shift a r b off y r' : store off y r = Some r' -> store (len a + off) y (a ++ r ++ b) = Some (a ++ r' ++ b).
Proof.
  intros H. apply store_inv in H as (c & x & d & -> & L1 & L2 & ->).
  replace (a ++ (c ++ x ++ d) ++ b) with ((a ++ c) ++ x ++ (d ++ b)) by now rewrite <- !app_assoc.
  rewrite (store_mid (a ++ c) x y (d ++ b)); auto. { now rewrite <- !app_assoc. } rewrite len_app. lia.
Qed.
Lemma load_shift a r b off n x : load off n r = Some x -> load (len a + off) n (a ++ r ++ b) = Some x.
Proof.
  intros H. apply load_inv in H as (c & d & -> & L1 & L2).
  replace (a ++ (c ++ x ++ d) ++ b) with ((a ++ c) ++ x ++ (d ++ b)) by now rewrite <- !app_assoc.
  apply load_mid; auto. rewrite len_app. lia.
Qed.
Lemma run_step_shift a r b s r' : run_step s r = Some r' -> run_step (shift (len a) s) (a ++ r ++ b) = Some (a ++ r' ++ b).
Proof.
  destruct s; simpl.
  - apply store_shift.
  - destruct (load src n r) as [x|] eqn:E; [|discriminate]. rewrite (load_shift _ _ _ _ _ _ E).
    destruct (f x); [|discriminate]. apply store_shift.
Qed.

(* the program of every region, with the place of the region added, and what it makes of it *)
Inductive regions : Z -> list (list Z) -> list (list step) -> list (list Z) -> Prop :=
  | reg_nil off : regions off [] [] []
  | reg_cons off r q r' rs ps rs' : run q r = Some r' -> regions (off + len r) rs ps rs' ->
      regions off (r :: rs) (map (shift off) q :: ps) (r' :: rs').

Lemma regions_step off rs ps rs' : regions off rs ps rs' -> forall i x t a, len a = off -> nth_error ps i = Some (x :: t) ->
  exists rs1, run_step x (a ++ concat rs) = Some (a ++ concat rs1) /\ regions off rs1 (upd ps i t) rs'.
Proof.
  induction 1 as [off|off r q r' rs ps rs' H1 H2 IH]; intros i x t a L E.
  - now destruct i.
  - destruct i as [|i]; simpl in E.
    + destruct q as [|s q]; [discriminate|]. simpl in E. inversion E; subst. clear E.
      simpl in H1. destruct (run_step s r) as [r1|] eqn:E; [|discriminate].
      exists (r1 :: rs). split.
      * simpl. now apply run_step_shift.
      * simpl. constructor; auto. apply run_step_len in E. now rewrite E.
    + destruct (IH i x t (a ++ r)) as (rs1 & G1 & G2); auto. { rewrite len_app. lia. }
      exists (r :: rs1). split.
      * simpl. rewrite !app_assoc. exact G1.
      * simpl. constructor; auto.
Qed.
Lemma regions_done off rs ps rs' : regions off rs ps rs' -> (forall p, In p ps -> p = []) -> rs' = rs.
Proof.
  induction 1 as [off|off r q r' rs ps rs' H1 H2 IH]; intros H; auto.
  assert (E : map (shift off) q = []) by (apply H; now left). destruct q; [|discriminate]. simpl in H1. inversion H1; subst.
  f_equal. apply IH. intros p Hp. apply H. now right.
Qed.
(** Every interleaving of the programs has the same effect as each program alone on its region. *)
Lemma run_regions ps l : interleave ps l -> forall rs rs', regions 0 rs ps rs' -> run l (concat rs) = Some (concat rs').
Proof.
  induction 1 as [ps H|ps i x t l E H IH]; intros rs rs' R; simpl.
  - now rewrite (regions_done _ _ _ _ R H).
  - destruct (regions_step _ _ _ _ R i x t [] eq_refl E) as (rs1 & G1 & G2). simpl in G1. rewrite G1. now apply IH.
Qed.

(** ** Lists of indices *)
Lemma upto_0 n : n <= 0 -> upto n = [].
Proof. intros H. unfold upto. replace (Z.to_nat n) with 0%nat by lia. reflexivity. Qed.
Lemma upto_succ n : 0 <= n -> upto (n + 1) = upto n ++ [n].
Proof.
  intros H. unfold upto. replace (Z.to_nat (n + 1)) with (S (Z.to_nat n)) by lia. rewrite seq_S, map_app. simpl. f_equal. f_equal. lia.
Qed.
Lemma downfrom_succ n : 0 <= n -> downfrom (n + 1) = n :: downfrom n.
Proof. intros H. unfold downfrom. rewrite upto_succ by auto. now rewrite rev_unit. Qed.
Lemma downfrom_0 n : n <= 0 -> downfrom n = [].
Proof. intros H. unfold downfrom. now rewrite upto_0. Qed.
Lemma upto_in n i : In i (upto n) <-> 0 <= i < n.
Proof.
  unfold upto. rewrite in_map_iff. split.
  - intros (j & <- & Hj). apply in_seq in Hj. lia.
  - intros H. exists (Z.to_nat i). rewrite in_seq. lia.
Qed.
Lemma downfrom_in n i : In i (downfrom n) <-> 0 <= i < n.
Proof. unfold downfrom. rewrite <- in_rev. apply upto_in. Qed.

(** ** Filling from the front *)
Lemma run_fill x item n : 0 <= n -> len x = item -> forall r, n * item <= len r ->
  run (map (fun j => Store (j * item) x) (upto n)) r = Some (concat (repeat x (Z.to_nat n)) ++ skipn (Z.to_nat (n * item)) r).
Proof.
  intros Hn Lx. revert n Hn. apply (natlike_ind (fun n => forall r, n * item <= len r -> run (map (fun j => Store (j * item) x) (upto n)) r = Some (concat (repeat x (Z.to_nat n)) ++ skipn (Z.to_nat (n * item)) r))).
  - intros r _. now rewrite upto_0 by lia.
  - intros n Hn IH r Hr. replace (Z.succ n) with (n + 1) in * by lia. pose proof (len_pos x) as Px.
    rewrite upto_succ by auto. rewrite map_app, run_app. rewrite IH by nia. cbn [map run run_step].
    destruct (split3 r (n * item) item) as (a & y & b & -> & L1 & L2); try nia.
    assert (Ea : Z.to_nat (n * item) = length a) by (unfold len in L1; lia). rewrite Ea.
    rewrite skipn_len by auto.
    assert (Lc : len (concat (repeat x (Z.to_nat n))) = n * item).
    { rewrite <- (Z2Nat.id n) at 2 by lia. generalize (Z.to_nat n). intros k. induction k as [|k IHk]; [reflexivity|]. simpl repeat. simpl concat. rewrite len_app, IHk. lia. }
    rewrite (store_mid _ y x b) by lia.
    f_equal. replace (Z.to_nat (n + 1)) with (Z.to_nat n + 1)%nat by lia. rewrite repeat_app, concat_app. simpl concat. rewrite app_nil_r, <- app_assoc. f_equal. f_equal.
    rewrite app_assoc. symmetry. apply skipn_len. rewrite app_length. unfold len in *. nia.
Qed.
Lemma len_concat_repeat x n : len (concat (repeat x n)) = Z.of_nat n * len x.
Proof. induction n as [|n IH]; [reflexivity|]. simpl repeat. simpl concat. rewrite len_app, IH. lia. Qed.

(** ** From the last item to the first, in place *)
Lemma len_concat_all xs a : Forall (fun x => len x = a) xs -> len (concat xs) = Z.of_nat (length xs) * a.
Proof. induction 1 as [|x xs E H IH]; [reflexivity|]. simpl concat. rewrite len_app, E, IH. simpl length. lia. Qed.

(* items xs of a bytes behind s become items ys of b bytes behind d *)
Lemma run_back f a b s d : 0 <= a <= b -> 0 <= s <= d ->
  forall xs ys pre junk post,
  Forall (fun x => len x = a) xs -> Forall (fun y => len y = b) ys -> Forall2 (fun x y => f x = Some y) xs ys ->
  len pre = d ->
  len junk = Z.of_nat (length xs) * b ->
  (exists head rest, len head = s /\ pre ++ junk = head ++ concat xs ++ rest) ->
  run (map (fun i => Move (s + i * a) a (d + i * b) f) (downfrom (Z.of_nat (length xs)))) (pre ++ junk ++ post) = Some (pre ++ concat ys ++ post).
Proof.
  intros Hab Hsd xs. induction xs as [|x xs IH] using rev_ind; intros ys pre junk post Fx Fy F2 Lp Lj (head & rest & Lh & Ej).
  - inversion F2; subst. change (Z.of_nat (length (@nil (list Z)))) with 0 in *. destruct junk; [|unfold len in Lj; simpl in Lj; lia]. reflexivity.
  - apply Forall2_app_inv_l in F2 as (ys' & yl & F2 & F2l & ->). inversion F2l as [|? y ? ? Fxy Fn]; subst. inversion Fn; subst. clear F2l Fn.
    apply Forall_app in Fx as [Fx Fxl]. inversion Fxl as [|? ? Lx _]; subst. apply Forall_app in Fy as [Fy Fyl]. inversion Fyl as [|? ? Ly _]; subst.
    rewrite app_length in *. simpl length in *. replace (Z.of_nat (length xs + 1)) with (Z.of_nat (length xs) + 1) in * by lia.
    set (n := Z.of_nat (length xs)) in *. assert (Hn : 0 <= n) by lia.
    rewrite downfrom_succ by lia. cbn [map run run_step].
    pose proof (len_concat_all xs (len x) Fx) as Lxs. fold n in Lxs.
    destruct (split3 junk (n * len y) (len y)) as (j1 & j2 & j3 & -> & L1 & L2); try lia; try nia.
    assert (j3 = []) by (rewrite !len_app in Lj; destruct j3; auto; unfold len in *; simpl in Lj; nia). subst j3. rewrite app_nil_r in *.
    rewrite concat_app in Ej. simpl concat in Ej. rewrite app_nil_r in Ej.
    (* the read *)
    replace (pre ++ (j1 ++ j2) ++ post) with ((head ++ concat xs) ++ x ++ (rest ++ post)).
    2:{ rewrite (app_assoc pre (j1 ++ j2) post), Ej. now rewrite <- !app_assoc. }
    rewrite load_mid by (rewrite ?len_app; lia). rewrite Fxy.
    replace ((head ++ concat xs) ++ x ++ rest ++ post) with ((pre ++ j1) ++ j2 ++ post).
    2:{ replace ((head ++ concat xs) ++ x ++ rest ++ post) with ((head ++ (concat xs ++ x) ++ rest) ++ post) by now rewrite <- !app_assoc. rewrite <- Ej. now rewrite <- !app_assoc. }
    rewrite (store_mid (pre ++ j1) j2 y post) by (rewrite ?len_app; lia).
    replace ((pre ++ j1) ++ y ++ post) with (pre ++ j1 ++ (y ++ post)) by now rewrite <- !app_assoc.
    rewrite (IH ys' pre j1 (y ++ post)); auto.
    + f_equal. rewrite concat_app. simpl concat. rewrite app_nil_r. now rewrite <- !app_assoc.
    + (* what is left to be read *)
      assert (G : len (head ++ concat xs) <= len (pre ++ j1)) by (rewrite !len_app; nia).
      exists head, (skipn (length (head ++ concat xs)) (pre ++ j1)). split; auto.
      rewrite (app_assoc head). rewrite <- (firstn_skipn (length (head ++ concat xs)) (pre ++ j1)) at 1. f_equal.
      assert (E : firstn (length (head ++ concat xs)) ((pre ++ j1) ++ j2) = firstn (length (head ++ concat xs)) ((head ++ concat xs) ++ (x ++ rest))).
      { f_equal. rewrite <- !app_assoc in *. exact Ej. }
      rewrite (firstn_len (head ++ concat xs)) in E by auto. etransitivity; [|exact E].
      symmetry. rewrite (firstn_app _ (pre ++ j1) j2). replace (length (head ++ concat xs) - length (pre ++ j1))%nat with 0%nat by (unfold len in G; lia). cbn [firstn]. apply app_nil_r.
Qed.
