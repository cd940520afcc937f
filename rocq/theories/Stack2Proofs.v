(** The accesses of one task. *)
From Coq Require Import SpecFloat.
From Verif Require Import Base MemLemmas Inter ConvModel ConvSpec StackModel StackSpec StackProofs.
Local Open Scope Z_scope.

Lemma length_le w v : length (le w v) = w.
Proof. revert v. induction w as [|w IH]; intros v; simpl; auto. Qed.
Lemma size_pos t : 0 < size t. Proof. destruct t; reflexivity. Qed.
Lemma len_enc t v : len (enc t v) = size t.
Proof. unfold enc, len. rewrite length_le. pose proof (size_pos t). lia. Qed.

(** ** Items *)
Lemma cut_len count n l : len l = Z.of_nat count * Z.of_nat n -> Forall (fun x => len x = Z.of_nat n) (cut count n l) /\ length (cut count n l) = count /\ concat (cut count n l) = l.
Proof.
  revert l. induction count as [|c IH]; intros l H; simpl.
  - split; auto. split; auto. destruct l; auto. unfold len in H. simpl in H. lia.
  - assert (L : len (firstn n l) = Z.of_nat n) by (unfold len in *; rewrite firstn_length; nia).
    destruct (IH (skipn n l)) as (I1 & I2 & I3). { unfold len in *. rewrite skipn_length. nia. }
    split; [|split]; auto. rewrite I3. apply firstn_skipn.
Qed.
Lemma product_nonneg l : Forall (fun d => 0 <= d) l -> 0 <= product l.
Proof. induction 1; cbn; [lia|]. unfold product in *. nia. Qed.
Lemma product_cons (b : block) : b_dims b <> [] -> product (b_dims b) = dim0 b * product (tl (b_dims b)).
Proof. unfold dim0. destruct (b_dims b); [congruence|]. reflexivity. Qed.

Lemma items_ok p : part_ok p -> 0 < b_item (fst p) ->
  Forall (fun x => len x = b_item (fst p)) (items p) /\ Z.of_nat (length (items p)) = product (b_dims (fst p)) /\ concat (items p) = snd p.
Proof.
  intros H Hi. destruct H as [_ [_ D] L _]. pose proof (product_nonneg _ D) as P. unfold items.
  destruct (cut_len (Z.to_nat (product (b_dims (fst p)))) (Z.to_nat (b_item (fst p))) (snd p)) as (I1 & I2 & I3). { rewrite L. rewrite !Z2Nat.id by lia. reflexivity. }
  rewrite Z2Nat.id in I1 by lia. split; auto. split; auto. rewrite I2. lia.
Qed.
Lemma item_pos b : number_block b \/ text_block b -> 0 < b_item b.
Proof. intros [(t & _ & ->)|[_ H]]; auto. apply size_pos. Qed.

(** ** The loops of a task, on the region of the file *)
Lemma shift_fill base item x n : map (fun j => Store (base + j * item) x) (upto n) = map (shift base) (map (fun j => Store (j * item) x) (upto n)).
Proof. rewrite map_map. reflexivity. Qed.
Lemma shift_convert base bytes a b f : ConvertInplace base bytes a b f = map (shift base) (ConvertInplace 0 bytes a b f).
Proof. unfold ConvertInplace. destruct (bytes / a * b <? bytes); auto. rewrite map_map. reflexivity. Qed.
Lemma shift_widen base unit slave wide rows : widen base unit slave wide rows = map (shift base) (widen 0 unit slave wide rows).
Proof.
  unfold widen. rewrite concat_map, map_map. f_equal. apply map_ext. intros r. rewrite map_app, !map_map. f_equal; apply map_ext; intros j; simpl; f_equal.
Qed.

(* the conversion loop *)
Lemma run_convert f a b xs ys r : 0 < a <= b ->
  Forall (fun x => len x = a) xs -> Forall (fun y => len y = b) ys -> Forall2 (fun x y => f x = Some y) xs ys ->
  len r = Z.of_nat (length xs) * b -> forall junk post, r = concat xs ++ junk ->
  run (ConvertInplace 0 (Z.of_nat (length xs) * a) a b f) (r ++ post) = Some (concat ys ++ post).
Proof.
  intros Hab Fx Fy F2 Lr junk post E. unfold ConvertInplace. rewrite Z.div_mul by lia.
  replace (Z.of_nat (length xs) * b <? Z.of_nat (length xs) * a) with false by nia.
  apply (run_back f a b 0 0) with (pre := []) (junk := r); auto; try lia.
  exists [], junk. split; auto.
Qed.

(* zeros from the end *)
Lemma run_zeros unit base m : 0 <= m -> 0 <= unit -> forall pre junk post, len pre = base * unit -> len junk = m * unit ->
  run (map (fun j => Store ((base + j) * unit) (repeat 0 (Z.to_nat unit))) (downfrom m)) (pre ++ junk ++ post) = Some (pre ++ repeat 0 (Z.to_nat (m * unit)) ++ post).
Proof.
  intros Hm Hu. revert m Hm.
  apply (natlike_ind (fun m => forall pre junk post, len pre = base * unit -> len junk = m * unit ->
    run (map (fun j => Store ((base + j) * unit) (repeat 0 (Z.to_nat unit))) (downfrom m)) (pre ++ junk ++ post) = Some (pre ++ repeat 0 (Z.to_nat (m * unit)) ++ post))).
  - intros pre junk post _ L. rewrite downfrom_0 by lia. simpl. destruct junk; auto. unfold len in L. simpl in L. lia.
  - intros m Hm IH pre junk post Lp Lj. replace (Z.succ m) with (m + 1) in * by lia. rewrite downfrom_succ by auto. cbn [map run run_step].
    destruct (split3 junk (m * unit) unit) as (j1 & j2 & j3 & -> & L1 & L2); try nia.
    assert (j3 = []) by (rewrite !len_app in Lj; destruct j3; auto; unfold len in *; simpl in Lj; nia). subst j3. rewrite app_nil_r in *.
    replace (pre ++ (j1 ++ j2) ++ post) with ((pre ++ j1) ++ j2 ++ post) by now rewrite <- !app_assoc.
    rewrite (store_mid (pre ++ j1) j2 _ post) by (rewrite ?len_app, ?len_repeat; lia).
    rewrite <- app_assoc. rewrite IH by auto. f_equal. f_equal. rewrite app_assoc. f_equal. rewrite <- repeat_app. f_equal. nia.
Qed.

(* one row of a text *)
Lemma run_row unit slave wide r : 0 < unit -> 0 <= slave <= wide -> 0 <= r -> forall mem, (r + 1) * (wide * unit) <= len mem ->
  run (map (fun j => Store (0 + (r * wide + j) * unit) (repeat 0 (Z.to_nat unit))) (map (fun j => slave + j) (downfrom (wide - slave))) ++
       map (fun j => Move (0 + (r * slave + j) * unit) unit (0 + (r * wide + j) * unit) Some) (downfrom slave)) mem =
  run_step (Move (0 + r * (slave * unit)) (slave * unit) (0 + r * (wide * unit)) (fun x => Some (x ++ repeat 0 (Z.to_nat ((wide - slave) * unit))))) mem.
Proof.
  intros Hu Hs Hr mem Hl. rewrite run_app.
  assert (A1 : 0 <= slave * unit) by nia. assert (A2 : slave * unit <= wide * unit) by nia.
  assert (A3 : 0 <= r * (wide * unit)) by (apply Z.mul_nonneg_nonneg; lia). assert (A0 : 0 <= r * (slave * unit)) by (apply Z.mul_nonneg_nonneg; lia).
  assert (A4 : r * (slave * unit) <= r * (wide * unit)) by (apply Z.mul_le_mono_nonneg_l; lia).
  assert (A5 : (wide - slave) * unit = wide * unit - slave * unit) by lia.
  assert (A6 : (r + 1) * (wide * unit) = r * (wide * unit) + wide * unit) by lia.
  destruct (split3 mem (r * (wide * unit)) (slave * unit)) as (pre & junk & post' & -> & L1 & L2); try lia.
  rewrite !len_app in Hl.
  destruct (split3 post' 0 ((wide - slave) * unit)) as (e & jz & post & -> & L3 & L4); try lia.
  assert (e = []) by (destruct e; auto; unfold len in L3; simpl in L3; lia). subst e. simpl app in *. clear L3.
  rewrite map_map.
  replace (map (fun x => Store (0 + (r * wide + (slave + x)) * unit) (repeat 0 (Z.to_nat unit))) (downfrom (wide - slave)))
    with (map (fun x => Store (((r * wide + slave) + x) * unit) (repeat 0 (Z.to_nat unit))) (downfrom (wide - slave))).
  2:{ apply map_ext. intros j. f_equal. lia. }
  replace (pre ++ junk ++ jz ++ post) with ((pre ++ junk) ++ jz ++ post) at 1 by now rewrite <- !app_assoc.
  rewrite run_zeros by (rewrite ?len_app; lia).
  (* the bytes of the row *)
  destruct (split3 (pre ++ junk) (r * (slave * unit)) (slave * unit)) as (h & x & rest & E & L5 & L6); try (rewrite ?len_app; lia).
  cbn [run_step].
  replace (pre ++ junk ++ jz ++ post) with (h ++ x ++ (rest ++ jz ++ post)).
  2:{ rewrite (app_assoc pre junk), E. now rewrite <- !app_assoc. }
  rewrite load_mid by lia.
  replace (h ++ x ++ rest ++ jz ++ post) with (pre ++ (junk ++ jz) ++ post).
  2:{ rewrite <- !app_assoc. rewrite (app_assoc pre junk), E. now rewrite <- !app_assoc. }
  rewrite (store_mid pre (junk ++ jz)) by (rewrite ?len_app, ?len_repeat; lia).
  (* moving them *)
  rewrite <- app_assoc.
  destruct (cut_len (Z.to_nat slave) (Z.to_nat unit) x) as (C1 & C2 & C3). { rewrite !Z2Nat.id by lia. exact L6. }
  rewrite Z2Nat.id in C1 by lia.
  replace (map (fun j => Move (0 + (r * slave + j) * unit) unit (0 + (r * wide + j) * unit) Some) (downfrom slave))
    with (map (fun i => Move (r * (slave * unit) + i * unit) unit (r * (wide * unit) + i * unit) Some) (downfrom (Z.of_nat (length (cut (Z.to_nat slave) (Z.to_nat unit) x))))).
  2:{ rewrite C2, Z2Nat.id by lia. apply map_ext. intros j. f_equal; lia. }
  rewrite (run_back Some unit unit (r * (slave * unit)) (r * (wide * unit))) with (ys := cut (Z.to_nat slave) (Z.to_nat unit) x); auto; try lia.
  - rewrite C3. now rewrite <- !app_assoc.
  - clear. induction (cut (Z.to_nat slave) (Z.to_nat unit) x); constructor; auto.
  - exists h, rest. rewrite C3. auto.
Qed.
Lemma run_same (P : Z -> list step) (M : Z -> step) L : forall l mem, len mem = L -> (forall r mem, In r l -> len mem = L -> run (P r) mem = run_step (M r) mem) ->
  run (concat (map P l)) mem = run (map M l) mem.
Proof.
  induction l as [|r l IH]; intros mem Hm H; auto. cbn [map concat run]. rewrite run_app. rewrite H by (auto; now left).
  destruct (run_step (M r) mem) as [mem'|] eqn:E; auto. apply IH.
  - apply run_step_len in E. lia.
  - intros r' m' Hr. apply H. now right.
Qed.
Lemma run_widen unit slave wide xs r : 0 < unit -> 0 <= slave <= wide ->
  Forall (fun x => len x = slave * unit) xs -> len r = Z.of_nat (length xs) * (wide * unit) -> forall junk post, r = concat xs ++ junk ->
  run (widen 0 unit slave wide (Z.of_nat (length xs))) (r ++ post) = Some (concat (map (fun x => x ++ repeat 0 (Z.to_nat ((wide - slave) * unit))) xs) ++ post).
Proof.
  intros Hu Hs Fx Lr junk post E. unfold widen.
  rewrite (run_same _ (fun r => Move (0 + r * (slave * unit)) (slave * unit) (0 + r * (wide * unit)) (fun x => Some (x ++ repeat 0 (Z.to_nat ((wide - slave) * unit))))) (len (r ++ post))); auto.
  2:{ intros i mem Hi Hm. apply downfrom_in in Hi. apply run_row; try lia. rewrite Hm, len_app, Lr. pose proof (len_pos post). assert (0 <= wide * unit) by nia. assert ((i + 1) * (wide * unit) <= Z.of_nat (length xs) * (wide * unit)) by (apply Z.mul_le_mono_nonneg_r; lia). lia. }
  apply (run_back _ (slave * unit) (wide * unit) 0 0) with (pre := []) (junk := r); auto; try lia; try nia.
  - clear - Fx Hu Hs. induction Fx as [|x xs Lx Fx IH]; constructor; auto. rewrite len_app, len_repeat, Lx. nia.
  - clear. induction xs as [|x xs IH]; constructor; auto.
  - exists [], junk. split; auto.
Qed.
