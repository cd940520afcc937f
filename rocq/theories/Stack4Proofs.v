(** One task: what it leaves in its part of the column. *)
From Coq Require Import SpecFloat.
From Verif Require Import Base MemLemmas Inter ConvModel ConvSpec StackModel StackSpec StackProofs Stack2Proofs Stack3Proofs.
Local Open Scope Z_scope.

(* the array can be turned into items of the column *)
Definition fits (k o : block) : Prop :=
  tl (b_dims o) = tl (b_dims k) /\
  ((exists t u, of_num (fixed o) = Some t /\ b_item o = size t /\ of_num (fixed k) = Some u /\ b_item k = size u /\ below t u = true) \/
   (text_block o /\ text_block k /\ ((b_dtype o = b_dtype k /\ b_item o <= b_item k) \/ (b_dtype o = SDS_STRING /\ b_dtype k = SDS_UNICODE)))).
Definition answer (k o : block) (c : compat) : Prop :=
  c_ok c = true /\ c_string c = (fixed k =? fixed o) && negb (b_item k =? b_item o) /\ c_conv c = negb (fixed k =? fixed o).

Lemma text_fixed b : text_block b -> fixed b = b_dtype b /\ of_num (fixed b) = None /\ (b_dtype b = 18 \/ b_dtype b = 19).
Proof. intros [[E|[E _]] _]; unfold fixed, FixupDType; rewrite E; auto. Qed.

Lemma below_parts t u : below t u = true -> size t <= size u /\ (is_float t = true -> is_float u = true) /\ (u = Bool -> t = Bool) /\ kept t u.
Proof.
  unfold below. intros H. apply andb_true_iff in H as [H H4]. apply andb_true_iff in H as [H H3]. apply andb_true_iff in H as [H1 H2].
  apply Z.leb_le in H1. split; auto. split. { intros E. rewrite E in H2. destruct (is_float u); auto. }
  split. { intros ->. destruct t; auto; discriminate. } now apply kept_b_ok.
Qed.
Lemma convert_total t u bs : below t u = true -> exists v, ConvertItem t u (dec t bs) = Some v.
Proof.
  intros H. apply below_parts in H as (_ & H & _). unfold ConvertItem, dec.
  destruct (is_float t); [specialize (H eq_refl)|clear H]; destruct u; try (exfalso; discriminate);
    (match goal with |- exists v, (if ?c then _ else _) = _ => destruct c end; eexists; reflexivity).
Qed.

Lemma bytes_per_row o : 0 < dim0 o -> GetBytesPerRow o = product (tl (b_dims o)) * b_item o.
Proof.
  intros H. unfold GetBytesPerRow. replace (0 <? dim0 o) with true by lia. rewrite Z.mul_comm with (n := dim0 o). now rewrite Z.div_mul by lia.
Qed.
Lemma item_nonneg_row k : 0 <= product (tl (b_dims k)) -> 0 < b_item k -> 0 <= row_size k.
Proof. unfold row_size. nia. Qed.

Lemma forall2_choose {A B : Type} (R : A -> B -> Prop) xs : Forall (fun x => exists y, R x y) xs -> exists ys, Forall2 R xs ys.
Proof. induction 1 as [|x xs [y H] _ [ys IH]]; [exists []|exists (y :: ys)]; auto. Qed.
Lemma forall2_len {A B : Type} (R : A -> B -> Prop) xs ys : Forall2 R xs ys -> length xs = length ys.
Proof. induction 1; simpl; auto. Qed.
Lemma forall2_right {A B : Type} (R : A -> B -> Prop) (P : B -> Prop) xs ys : (forall x y, R x y -> P y) -> Forall2 R xs ys -> Forall P ys.
Proof. intros H. induction 1; eauto. Qed.
Lemma forall2_map_l {A B : Type} (g : A -> B) (R : A -> B -> Prop) xs : Forall (fun x => R x (g x)) xs -> Forall2 R xs (map g xs).
Proof. induction 1; simpl; auto. Qed.

(* the room of the file, after its bytes were read *)
Lemma room data R n : len data <= n -> n <= len R -> exists junk post,
  store 0 data R = Some ((data ++ junk) ++ post) /\ len (data ++ junk) = n.
Proof.
  intros H1 H2. pose proof (len_pos data).
  destruct (split3 R 0 (len data)) as (a & x & b & -> & La & Lx); try lia.
  destruct a; [|unfold len in La; simpl in La; lia]. cbn [app] in *. rewrite len_app in H2.
  destruct (split3 b 0 (n - len data)) as (a & y & c & -> & La' & Ly); try lia.
  destruct a; [|unfold len in La'; simpl in La'; lia]. cbn [app] in *.
  exists y, c. split. { pose proof (store_mid [] x data (y ++ c) 0 eq_refl Lx) as P. cbn [app] in P. rewrite P. now rewrite app_assoc. }
  rewrite len_app. lia.
Qed.

(* characters *)
Lemma concat_singles {A : Type} (l : list A) : concat (map (fun b => [b]) l) = l.
Proof. induction l; simpl; congruence. Qed.
Lemma concat_map_concat {A B : Type} (f : A -> list B) (xs : list (list A)) : concat (map (fun x => concat (map f x)) xs) = concat (map f (concat xs)).
Proof. induction xs as [|x xs IH]; simpl; auto. now rewrite IH, map_app, concat_app. Qed.
Lemma le4 b : 0 <= b < 256 -> le 4 (unle [b]) = [b; 0; 0; 0].
Proof.
  intros H. cbn -[Z.modulo Z.div]. rewrite Z.add_0_r || idtac.
  replace (b + 256 * 0) with b by lia. rewrite Z.mod_small by lia. rewrite Z.div_small by lia. reflexivity.
Qed.

Section part.
Variables (k o : block) (data : list Z).
Hypothesis ok : part_ok (o, data).
Hypothesis order : rotated k = false.
Hypothesis fit : fits k o.
Hypothesis place : in_place k o.

Let its := items (o, data).

Lemma task_part total off rows c : answer k o c -> dim0 o <= rows -> rows * product (tl (b_dims k)) < 2 ^ 31 ->
  exists q, DecompressMultiArray k total off rows (Some (o, data)) c = Some (map (shift (row_size k * off)) q) /\
  forall R, len R = rows * row_size k -> exists ys junk, run q R = Some (concat ys ++ junk) /\
    Forall2 (item_ok k o) its ys /\ Forall (fun y => len y = b_item k) ys.
Proof.
  intros (C1 & C2 & C3) Hrows Hsmall.
  pose proof (item_pos o (po_type _ ok)) as Ipos. destruct (items_ok _ ok Ipos) as (I1 & I2 & I3). cbn [fst snd] in I1, I2, I3. fold its in I1, I2, I3.
  destruct (po_dims _ ok) as [Dn Dp]. cbn [fst] in Dn, Dp. pose proof (product_cons o Dn) as Pc.
  assert (D0 : 0 <= dim0 o) by (unfold dim0; destruct (b_dims o); [congruence|]; now inversion Dp).
  assert (Pt : 0 <= product (tl (b_dims o))) by (apply product_nonneg; destruct (b_dims o); simpl; auto; now inversion Dp).
  destruct fit as [Tl Ft]. rewrite <- Tl in Hsmall.
  pose proof (po_data _ ok) as Ld. cbn [fst snd] in Ld.
  unfold DecompressMultiArray. rewrite C1, order. cbn [negb].
  assert (Kpos : 0 < b_item k) by (destruct Ft as [(t & u & _ & _ & _ & -> & _)|(_ & [_ H] & _)]; [apply size_pos|exact H]).
  assert (Empty : product (b_dims o) = 0 -> exists q : list step, Some [] = Some (map (shift (row_size k * off)) q) /\
    forall R, len R = rows * row_size k -> exists ys junk, run q R = Some (concat ys ++ junk) /\ Forall2 (item_ok k o) its ys /\ Forall (fun y => len y = b_item k) ys).
  { intros E. exists []. split; auto. intros R _. exists [], R. split; auto. destruct its; [|simpl in I2; lia]. auto. }
  destruct (Z.eqb_spec (dim0 o) 0) as [Z0|Z0]. { apply Empty. rewrite Pc, Z0. reflexivity. }
  rewrite (bytes_per_row o) by lia.
  destruct (Z.eqb_spec (product (tl (b_dims o)) * b_item o) 0) as [Z1|Z1]. { apply Empty. nia. }
  clear Empty.
  set (m := product (tl (b_dims o))) in *. assert (Pm : 0 < m) by nia.
  set (slave := m * b_item o) in *. assert (Ps : 0 < slave) by nia.
  assert (Hn : len data / slave = dim0 o). { rewrite Ld, Pc. replace (dim0 o * m * b_item o) with (dim0 o * slave) by (unfold slave; ring). apply Z.div_mul. lia. }
  rewrite Hn.
  assert (Hbytes : dim0 o * slave = Z.of_nat (length its) * b_item o) by (rewrite I2, Pc; unfold slave; ring).
  assert (Hlen : len data = Z.of_nat (length its) * b_item o) by (rewrite Ld, I2; ring).
  assert (RK : row_size k = b_item k * m) by (unfold row_size, m; now rewrite Tl).
  assert (HR : forall R, len R = rows * row_size k -> Z.of_nat (length its) * b_item k <= len R).
  { intros R ->. rewrite I2, Pc, RK. assert (A1 : 0 <= b_item k * m) by nia.
    replace (dim0 o * m * b_item k) with (dim0 o * (b_item k * m)) by ring. apply Z.mul_le_mono_nonneg_r; auto. }
  rewrite C2, C3.
  destruct (Z.eqb_spec (fixed k) (fixed o)) as [Ef|Ef].
  - cbn [andb negb]. destruct (Z.eqb_spec (b_item k) (b_item o)) as [Ei|Ei]; cbn [negb].
    + (* the bytes as they are *)
      exists [Store 0 data]. split. { cbn [app map shift]. now rewrite Z.add_0_r. }
      intros R HL. destruct (room data R (len data)) as (junk & post & E & L). { lia. } { rewrite Hlen, <- Ei. auto. }
      assert (junk = []) as -> by (rewrite len_app in L; destruct junk; auto; unfold len in L; simpl in L; lia).
      rewrite app_nil_r in E. exists its, post. cbn [run run_step]. rewrite E, I3. split; auto. split.
      * apply Forall_forall in I1 || idtac. rewrite <- (map_id its) at 2. apply forall2_map_l. apply Forall_forall. intros x Hx.
        rewrite Forall_forall in I1. specialize (I1 x Hx). unfold item_ok. rewrite Ef.
        assert (T : text_item (fixed o) (fixed o) (b_item k) x x).
        { unfold text_item. rewrite Z.eqb_refl. replace (Z.to_nat (b_item k) - length x)%nat with 0%nat. { now rewrite app_nil_r. } unfold len in I1. lia. }
        destruct (of_num (fixed o)); auto. unfold number_item. now destruct (dtype_beq d d) eqn:B; [|destruct d].
      * now rewrite Ei.
    + (* a text in a wider column *)
      destruct Ft as [(t & u & F1 & F2 & F3 & F4 & _)|(To & Tk & F)]. { exfalso. rewrite Ef in F3. assert (t = u) by congruence. subst u. lia. }
      destruct (text_fixed o To) as (Fo & No & _). destruct (text_fixed k Tk) as (Fk & Nk & Dk).
      assert (Wi : b_item o < b_item k). { destruct F as [[_ F]|[F1 F2]]; [lia|]. rewrite Fo, Fk, F1, F2 in Ef. discriminate. }
      destruct place as [Pl _]. destruct (Pl To (eq_sym Ef)) as [Pl1|Pl1]; [lia|].
      assert (m = 1). { unfold m. destruct (b_dims o) as [|d [|e r]]; simpl in Pl1; try discriminate. reflexivity. }
      assert (slave = b_item o) by (unfold slave; lia). replace (product (tl (b_dims o))) with 1 in * by lia.
      unfold StringFixup. fold m. rewrite H. rewrite Z.mul_1_r. rewrite H0.
      replace ((0 <? b_item k - b_item o) && (0 <? dim0 o)) with true by lia.
      assert (dim0 o <= INT_MAX). { assert (dim0 o * m <= rows * m) by nia. unfold INT_MAX. lia. }
      replace (dim0 o <=? INT_MAX) with true by lia.
      assert (Lits : Z.of_nat (length its) = dim0 o) by (rewrite I2, Pc; lia).
      assert (Fin : forall R, len R = rows * row_size k -> forall q, (forall junk post, len (data ++ junk) = Z.of_nat (length its) * b_item k ->
         run q ((data ++ junk) ++ post) = Some (concat (map (fun x => x ++ repeat 0 (Z.to_nat (b_item k - b_item o))) its) ++ post)) ->
         exists ys junk, run (Store 0 data :: q) R = Some (concat ys ++ junk) /\ Forall2 (item_ok k o) its ys /\ Forall (fun y => len y = b_item k) ys).
      { intros R HL q Hq. destruct (room data R (Z.of_nat (length its) * b_item k)) as (junk & post & E & L).
        { rewrite Hlen. apply Z.mul_le_mono_nonneg_l; lia. } { auto. }
        exists (map (fun x => x ++ repeat 0 (Z.to_nat (b_item k - b_item o))) its), post. cbn [run run_step]. rewrite E.
        split. { now apply Hq. } rewrite Forall_forall in I1. split.
        - apply forall2_map_l. apply Forall_forall. intros x Hx. specialize (I1 x Hx). unfold item_ok. rewrite No. unfold text_item. rewrite Ef, Z.eqb_refl.
          f_equal. f_equal. unfold len in I1. lia.
        - apply Forall_map. apply Forall_forall. intros x Hx. rewrite len_app, len_repeat. specialize (I1 x Hx). lia. }
      destruct (Z.eqb_spec (b_dtype k) SDS_STRING) as [DS|DS].
      * exists (Store 0 data :: widen 0 1 (b_item o) (b_item k) (dim0 o)). split.
        { cbn [map shift app]. rewrite Z.add_0_r, app_nil_r, shift_widen. reflexivity. }
        intros R HL. apply (Fin R HL). intros junk post L. rewrite <- Lits.
        replace (b_item k - b_item o) with ((b_item k - b_item o) * 1) by lia. apply (run_widen 1 (b_item o) (b_item k) its (data ++ junk)) with (junk := junk); try lia.
        { eapply Forall_impl; [|exact I1]. cbv beta. intros; lia. } { rewrite I3. reflexivity. }
      * assert (M4 : b_item k mod 4 = 0 /\ b_item o mod 4 = 0).
        { destruct Tk as [[T|[_ T]] _]; [now elim DS|]. destruct To as [[T2|[_ T2]] _]; [|auto]. exfalso. rewrite Fo, Fk, T2 in Ef. now rewrite Ef in DS. }
        destruct M4 as [Mk Mo]. pose proof (Z.div_mod (b_item k) 4 ltac:(lia)) as Dk'. pose proof (Z.div_mod (b_item o) 4 ltac:(lia)) as Do'.
        exists (Store 0 data :: widen 0 4 (b_item o / 4) (b_item k / 4) (dim0 o)). split.
        { cbn [map shift app]. rewrite Z.add_0_r, app_nil_r, shift_widen. reflexivity. }
        intros R HL. apply (Fin R HL). intros junk post L. rewrite <- Lits.
        replace (b_item k - b_item o) with ((b_item k / 4 - b_item o / 4) * 4) by lia. apply (run_widen 4 (b_item o / 4) (b_item k / 4) its (data ++ junk)) with (junk := junk); try lia.
        { eapply Forall_impl; [|exact I1]. cbv beta. intros; lia. } { rewrite I3. reflexivity. }
  - cbn [andb negb].
    destruct Ft as [(t & u & F1 & F2 & F3 & F4 & Bl)|(To & Tk & F)].
    + (* a conversion *)
      pose proof (below_parts _ _ Bl) as (B1 & B2 & B3 & _).
      assert (Nu : t <> u). { intros ->. apply fixed_num in F1. apply fixed_num in F3. congruence. }
      assert (Nb : u <> Bool) by (intros E; apply Nu; rewrite E; auto).
      set (f := fun bs => option_map (enc u) (ConvertItem t u (dec t bs))).
      exists (Store 0 data :: ConvertInplace 0 (dim0 o * slave) (size t) (size u) f). split.
      { cbn [map shift app]. rewrite Z.add_0_r. unfold ConvertDType.
        assert (NS : (fixed o =? SDS_STRING) && (fixed k =? SDS_UNICODE) = false).
        { destruct (Z.eqb_spec (fixed o) SDS_STRING) as [E|]; auto. rewrite E in F1. discriminate. }
        rewrite NS, F1, F3. rewrite shift_convert. destruct u; try reflexivity. now elim Nb. }
      intros R HL. destruct (room data R (Z.of_nat (length its) * b_item k)) as (junk & post & E & L).
      { rewrite Hlen. apply Z.mul_le_mono_nonneg_l; lia. } { auto. }
      destruct (forall2_choose (fun x y => f x = Some y) its) as [ys F2'].
      { apply Forall_forall. intros x _. destruct (convert_total t u x Bl) as [v V]. unfold f. rewrite V. eexists. reflexivity. }
      assert (Ly : Forall (fun y => len y = size u) ys).
      { eapply forall2_right; [|exact F2']. cbv beta. unfold f. intros x y. destruct (ConvertItem t u (dec t x)); [|discriminate]. intros [= <-]. apply len_enc. }
      exists ys, post. cbn [run run_step]. rewrite E. rewrite Hbytes, F2. split.
      { apply (run_convert f (size t) (size u) its ys (data ++ junk)) with (junk := junk); auto.
        - pose proof (size_pos t). lia.
        - now rewrite <- F2.
        - now rewrite <- F4.
        - now rewrite I3. }
      split; [|now rewrite F4]. clear - F2' F1 F3 Nu. induction F2' as [|x y xs ys H H1 IH]; auto. constructor; auto.
      unfold item_ok. rewrite F1, F3. unfold number_item. destruct (dtype_beq t u) eqn:Bq. { exfalso. apply Nu. now apply internal_dtype_dec_bl. }
      unfold f in H. destruct (ConvertItem t u (dec t x)) as [v|]; [|discriminate]. inversion H. eauto.
    + (* characters of one byte in a column of characters of four *)
      destruct (text_fixed o To) as (Fo & No & _). destruct (text_fixed k Tk) as (Fk & Nk & Dk).
      destruct F as [[F _]|[G1 G2]]. { exfalso. congruence. }
      destruct place as [_ Pl]. specialize (Pl To ltac:(auto)).
      set (f := fun bs : list Z => Some (le 4 (unle bs))).
      exists (Store 0 data :: ConvertInplace 0 (dim0 o * slave) 1 4 f). split.
      { cbn [map shift app]. rewrite Z.add_0_r. unfold ConvertDType. rewrite Fo, Fk, G1, G2. cbn [Z.eqb Pos.eqb andb SDS_STRING SDS_UNICODE]. change (18 =? 18) with true. change (19 =? 19) with true. cbn [andb]. now rewrite shift_convert. }
      intros R HL. destruct (room data R (Z.of_nat (length its) * b_item k)) as (junk & post & E & L).
      { rewrite Hlen. apply Z.mul_le_mono_nonneg_l; lia. } { auto. }
      pose (wide := fun x : list Z => concat (map (fun b => [b; 0; 0; 0]) x)).
      assert (Lw : forall x, len (wide x) = 4 * len x). { intros x. unfold wide, len. induction x as [|b x IH]; auto. cbn [map concat app length]. cbn [length] in *. lia. }
      exists (map wide its), post. cbn [run run_step]. rewrite E. split.
      { pose proof (run_convert f 1 4 (map (fun b => [b]) data) (map (fun b => [b; 0; 0; 0]) data) (data ++ junk)) as RC.
        rewrite map_length, concat_singles in RC.
        unfold wide. rewrite concat_map_concat, I3. rewrite <- RC with (junk := junk); try lia; auto.
        - f_equal. f_equal. rewrite Hbytes. unfold len in Hlen. lia.
        - apply Forall_map. apply Forall_forall. reflexivity.
        - apply Forall_map. apply Forall_forall. reflexivity.
        - pose proof (po_bytes _ ok) as Pb. cbn [snd] in Pb. clear - Pb. induction Pb as [|b bs H Hb IH]; simpl map; auto. constructor; auto. unfold f. now rewrite le4.
        - rewrite L. unfold len in Hlen. lia. }
      rewrite Forall_forall in I1. split.
      * apply forall2_map_l. apply Forall_forall. intros x Hx. specialize (I1 x Hx). unfold item_ok. rewrite No. unfold text_item.
        destruct (Z.eqb_spec (fixed o) (fixed k)); [congruence|]. fold (wide x).
        replace (Z.to_nat (b_item k) - length (wide x))%nat with 0%nat. { simpl. now rewrite app_nil_r. }
        pose proof (Lw x) as Lx. unfold len in Lx, I1. lia.
      * apply Forall_map. apply Forall_forall. intros x Hx. rewrite Lw. specialize (I1 x Hx). lia.
Qed.
End part.

(* a file without the column *)
Lemma task_gap k total off rows ds c : (number_block k /\ of_num (fixed k) <> Some F80) \/ text_block k -> rotated k = false -> 0 <= product (tl (b_dims k)) -> 0 <= ds <= rows ->
  rows * product (tl (b_dims k)) < 2 ^ 31 ->
  exists q, DecompressMultiArray k total off rows None c = Some (map (shift (row_size k * off)) q) /\
  forall R, len R = rows * row_size k -> exists junk, run q R = Some (concat (repeat (blank k) (Z.to_nat (ds * product (tl (b_dims k))))) ++ junk).
Proof.
  intros Hk Ho Pm Hd Hs. unfold DecompressMultiArray, GapFillAny. rewrite Ho. unfold GapFill. set (m := product (tl (b_dims k))) in *.
  assert (Ki : 0 < b_item k) by (apply item_pos; tauto).
  assert (RK : row_size k * rows / b_item k = rows * m). { unfold row_size. fold m. replace (b_item k * m * rows) with (rows * m * b_item k) by ring. apply Z.div_mul. lia. }
  assert (RK2 : row_size k * rows = rows * m * b_item k) by (unfold row_size; fold m; ring).
  rewrite RK. assert (Hm : 0 <= ds * m <= rows * m) by nia.
  assert (Split : forall R, len R = rows * row_size k -> forall x, len x = b_item k -> exists junk,
     Some (concat (repeat x (Z.to_nat (rows * m)))) = Some (concat (repeat x (Z.to_nat (ds * m))) ++ junk)).
  { intros R HL x Lx. exists (concat (repeat x (Z.to_nat (rows * m) - Z.to_nat (ds * m)))). rewrite <- concat_app, <- repeat_app. f_equal. f_equal. f_equal. lia. }
  destruct (existsb (Z.eqb (b_item k)) [1; 2; 4; 8]) eqn:Ex.
  - replace (rows * m <=? INT_MAX) with true by (unfold INT_MAX; lia).
    assert (Db : default_bytes (fixed k) (b_item k) = blank k /\ len (blank k) = b_item k).
    { unfold default_bytes, blank. destruct Hk as [[(t & T1 & T2) _]|Tk].
      - assert (NS : (fixed k =? SDS_STRING) || (fixed k =? SDS_UNICODE) = false).
        { apply fixed_num in T1. rewrite T1. now destruct t. }
        rewrite NS, T1, T2. split; auto. apply len_enc.
      - destruct (text_fixed k Tk) as (Fk & Nk & Dk). rewrite Nk, Fk. destruct Dk as [-> | ->]; cbn [SDS_STRING SDS_UNICODE]; split; try reflexivity; rewrite len_repeat; lia. }
    destruct Db as [-> Lb].
    exists (map (fun j => Store (j * b_item k) (blank k)) (upto (rows * m))). split. { now rewrite <- shift_fill. }
    intros R HL. rewrite run_fill; [|lia|auto|lia].
    replace (skipn (Z.to_nat (rows * m * b_item k)) R) with (@nil Z). 2:{ symmetry. apply skipn_all2. unfold len in HL. lia. }
    rewrite app_nil_r. apply (Split R HL); auto.
  - exists [Store 0 (repeat 0 (Z.to_nat (row_size k * rows)))]. split. { cbn [map shift]. now rewrite Z.add_0_r. }
    intros R HL.
    assert (Bk : blank k = repeat 0 (Z.to_nat (b_item k))).
    { unfold blank. destruct Hk as [[(t & T1 & T2) T3]|Tk].
      - exfalso. rewrite T2 in Ex. destruct t; try discriminate Ex. now elim T3.
      - destruct (text_fixed k Tk) as (Fk & Nk & Dk). now rewrite Nk. }
    cbn [run run_step].
    pose proof (store_mid [] R (repeat 0 (Z.to_nat (row_size k * rows))) [] 0 eq_refl) as P. cbn [app] in P. rewrite !app_nil_r in P.
    rewrite P by (rewrite len_repeat; assert (0 <= row_size k) by (unfold row_size; fold m; nia); nia).
    replace (repeat 0 (Z.to_nat (row_size k * rows))) with (concat (repeat (blank k) (Z.to_nat (rows * m)))).
    { apply (Split R HL). rewrite Bk, len_repeat. lia. }
    rewrite Bk, RK2. replace (Z.to_nat (rows * m * b_item k)) with (Z.to_nat (rows * m) * Z.to_nat (b_item k))%nat by (rewrite Z2Nat.inj_mul; lia).
    generalize (Z.to_nat (rows * m)) as a. clear. intros a. induction a as [|a IH]; auto. simpl concat. rewrite IH. now rewrite <- repeat_app.
Qed.
