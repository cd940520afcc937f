(** Proofs about IsMember32 and IsMemberCategorical: arrays, the lookups, then the calls. *)
From Verif Require Import Base Mem MemLemmas Par HashModel HashSpec HashProofs HashMember IsmModel IsmSpec.
Local Open Scope Z_scope.

(** ** Arrays *)
Lemma some_len {A} (l : list (option A)) : forall r, Par.all_some l = Some r -> length r = length l.
Proof.
  induction l as [|[a|] l IH]; cbn; intros r E; try discriminate; [inversion E; reflexivity|].
  destruct (Par.all_some l) as [r'|] eqn:El; [|discriminate]. inversion E; subst. cbn. f_equal. now apply IH.
Qed.
Lemma some_in {A} (l : list (option A)) : forall r x, Par.all_some l = Some r -> In x r -> In (Some x) l.
Proof.
  induction l as [|[a|] l IH]; cbn; intros r x E I; try discriminate; [inversion E; subst; destruct I|].
  destruct (Par.all_some l) as [r'|] eqn:El; [|discriminate]. inversion E; subst. destruct I as [->|I]; [now left|right]. eapply IH; eauto.
Qed.
Lemma some_map {A B} (f : A -> option B) (g : A -> B) l : (forall x, In x l -> f x = Some (g x)) -> Par.all_some (map f l) = Some (map g l).
Proof.
  induction l as [|x l IH]; cbn; intros H; [reflexivity|]. rewrite (H x) by now left. rewrite IH by (intros; apply H; now right). reflexivity.
Qed.

Lemma items_len item step a xs : items_at item step a = Some xs -> length xs = Z.to_nat (a_len a).
Proof. intros E. apply some_len in E. now rewrite map_length, seq_length in E. Qed.
Lemma items_item item step a xs x : items_at item step a = Some xs -> In x xs -> length x = Z.to_nat item.
Proof.
  intros E I. eapply some_in in E; [|exact I]. apply in_map_iff in E as (k & E & _). apply some_len in E. now rewrite map_length, seq_length in E.
Qed.
Lemma raw_elements a : contiguous a -> raw (a_item a) a = elements a.
Proof. unfold contiguous, raw, elements. now intros ->. Qed.

Definition zeros (d item n : Z) : array := mkArr d item n item 0 (repeat 0 (Z.to_nat (n * item))).
Lemma zrd_zeros N p : 0 <= p < Z.of_nat N -> zrd (repeat 0 N) p = Some 0.
Proof.
  intros H. rewrite zrd_some by lia. rewrite nth_error_repeat'. destruct (Nat.ltb_spec (Z.to_nat p) N); [reflexivity|lia].
Qed.
Lemma const_map {A B} (c : B) (l : list A) : map (fun _ => c) l = repeat c (length l).
Proof. induction l; cbn; congruence. Qed.
Lemma zeros_elements d item n : 0 <= item -> 0 <= n -> elements (zeros d item n) = Some (repeat (repeat 0 (Z.to_nat item)) (Z.to_nat n)).
Proof.
  intros Hi Hn. unfold elements, items_at, zeros. cbn [a_item a_stride a_mem a_base a_len].
  rewrite (some_map _ (fun _ => repeat 0 (Z.to_nat item))); [now rewrite const_map, seq_length|].
  intros k Hk. apply in_seq in Hk. unfold bytes_at. rewrite (some_map _ (fun _ => 0)); [now rewrite const_map, seq_length|].
  intros i Hi'. apply in_seq in Hi'. apply zrd_zeros. rewrite Z2Nat.id by nia. nia.
Qed.
Lemma zeros_bytes d item n xs : 0 <= item -> 0 <= n -> elements (zeros d item n) = Some xs -> forall x, In x xs -> forall c, In c x -> 0 <= c < 256.
Proof.
  intros Hi Hn E x I c J. rewrite zeros_elements in E by auto. inversion E; subst. apply repeat_spec in I. subst. apply repeat_spec in J. lia.
Qed.

(** ** Words and characters *)
Definition bytesl (x : list Z) : Prop := forall c, In c x -> 0 <= c < 256.
Lemma word_range x : bytesl x -> 0 <= word x < 256 ^ Z.of_nat (length x).
Proof.
  induction x as [|b x IH]; intros H; [cbn; lia|]. cbn [word fold_right length]. fold (word x).
  assert (B : 0 <= b < 256) by (apply H; now left). destruct IH; [intros c J; apply H; now right|].
  rewrite Nat2Z.inj_succ, Z.pow_succ_r by lia. lia.
Qed.
Lemma word_inj x : forall y, bytesl x -> bytesl y -> length x = length y -> word x = word y -> x = y.
Proof.
  induction x as [|b x IH]; intros [|c y] Hx Hy L E; try discriminate; [reflexivity|]. cbn [word fold_right] in E. fold (word x) (word y) in E.
  assert (B : 0 <= b < 256) by (apply Hx; now left). assert (C : 0 <= c < 256) by (apply Hy; now left).
  f_equal; [lia|]. apply IH; [intros e J; apply Hx; now right|intros e J; apply Hy; now right|now inversion L|lia].
Qed.
Lemma bytesl_firstn n x : bytesl x -> bytesl (firstn n x).
Proof. intros H c J. apply H. rewrite <- (firstn_skipn n x). apply in_or_app. now left. Qed.
Lemma bytesl_skipn n x : bytesl x -> bytesl (skipn n x).
Proof. intros H c J. apply H. rewrite <- (firstn_skipn n x). apply in_or_app. now right. Qed.
Lemma chars_len n : forall x, length (chars n x) = n.
Proof. induction n; cbn; intros; congruence. Qed.
Lemma chars_inj n : forall x y, bytesl x -> bytesl y -> length x = (4 * n)%nat -> length y = (4 * n)%nat -> chars n x = chars n y -> x = y.
Proof.
  induction n as [|n IH]; intros x y Hx Hy Lx Ly E.
  - destruct x, y; try discriminate. reflexivity.
  - cbn [chars] in E. injection E as E1 E2.
    rewrite <- (firstn_skipn 4 x), <- (firstn_skipn 4 y). f_equal.
    + apply word_inj; auto using bytesl_firstn. rewrite !firstn_length. lia.
    + apply IH; auto using bytesl_skipn; rewrite skipn_length; lia.
Qed.

Lemma same_text_eq (x y : list Z) : length x = length y -> (same_text x y <-> x = y).
Proof.
  intros L. split.
  - intros (k & [E|E]); pose proof (f_equal (@length Z) E) as F; rewrite app_length, repeat_length in F; assert (k = 0%nat) by lia; subst k;
      cbn in E; rewrite app_nil_r in E; auto.
  - intros ->. exists 0%nat. left. cbn. apply app_nil_r.
Qed.

(** ** Outcomes *)
Lemma okt_ret_inv {A} T (Q : A -> Prop) e : okt T Q e -> ~ T -> exists r, e = Ret r /\ Q r.
Proof. destruct e; cbn; intros H N; [eauto|contradiction|contradiction]. Qed.

Lemma member_spec_map {A B C D} (f : A -> C) (g : B -> D) (e : C -> D -> Prop) bad ys xs rs :
  member_spec e bad (map g ys) (map f xs) rs -> member_spec (fun x y => e (f x) (g y)) bad ys xs rs.
Proof.
  unfold member_spec. revert rs. induction xs as [|x xs IH]; intros rs F; inversion F as [|? r ? rs' R F']; subst; constructor; auto.
  destruct R as [(j & y & Hy & E & M & ->)|(N & ->)].
  - left. rewrite nth_error_map in Hy. destruct (nth_error ys j) as [y'|] eqn:Ey; [|discriminate]. inversion Hy; subst.
    exists j, y'. repeat split; auto. intros j' z L Ez. apply (M j'); auto. now rewrite nth_error_map, Ez.
  - right. split; auto. intros y I. apply N. now apply in_map.
Qed.
Lemma member_cat_row_map {A B C D} (f : A -> C) (g : B -> D) (e : C -> D -> Prop) ys x r :
  member_cat_row e (map g ys) (f x) r -> member_cat_row (fun x y => e (f x) (g y)) ys x r.
Proof.
  intros [(j & y & Hy & E & M & ->)|(N & ->)].
  - left. rewrite nth_error_map in Hy. destruct (nth_error ys j) as [y'|] eqn:Ey; [|discriminate]. inversion Hy; subst.
    exists j, y'. repeat split; auto. intros j' z L Ez. apply (M j'); auto. now rewrite nth_error_map, Ez.
  - right. split; auto. intros y I. apply N. now apply in_map.
Qed.
Lemma member_cat_map {A B C D} (f : A -> C) (g : B -> D) (e : C -> D -> Prop) ys xs r :
  member_cat_spec e (map g ys) (map f xs) r -> member_cat_spec (fun x y => e (f x) (g y)) ys xs r.
Proof.
  intros (rs & F & R). exists rs. split; auto. clear R. revert rs F. induction xs as [|x xs IH]; intros rs F; inversion F; subst; constructor; auto.
  now apply member_cat_row_map.
Qed.

(** the rows fit the index *)
Lemma member_rows_range {A B} (e : A -> B -> Prop) bad ys xs rs : member_spec e bad ys xs rs ->
  forall r, In r rs -> snd r = bad \/ 0 <= snd r < Z.of_nat (length ys).
Proof.
  induction 1 as [|x r xs rs R F IH]; intros q I; [destruct I|]. destruct I as [<-|I]; [|now apply IH].
  destruct R as [(j & y & Hy & _ & _ & ->)|(_ & ->)]; [right|now left]. apply nth_error_Some_lt in Hy. cbn. lia.
Qed.
Lemma cat_rows_range {A B} (e : A -> B -> Prop) ys xs rs : Forall2 (member_cat_row e ys) xs rs ->
  forall r, In r rs -> 0 <= fst r <= Z.of_nat (length ys).
Proof.
  induction 1 as [|x r xs rs R F IH]; intros q I; [destruct I|]. destruct I as [<-|I]; [|now apply IH].
  destruct R as [(j & y & Hy & _ & _ & ->)|(_ & ->)]; cbn; [apply nth_error_Some_lt in Hy; lia|lia].
Qed.

Lemma index_width_ok d : In (index_width d) [8; 16; 32; 64].
Proof. unfold index_width. destruct d as [|p|p]; cbn; auto. do 3 (destruct p as [p|p|]; cbn; auto). Qed.
Lemma width_pos d : 0 < index_width d.
Proof. pose proof (index_width_ok d) as H. cbn in H. lia. Qed.
Lemma index_fits n : 0 <= n < 68719476731 -> n < 2 ^ (index_width (index_size_type n) - 1).
Proof.
  intros H. unfold index_size_type. destruct (Z.ltb_spec n 100); [cbn; lia|]. destruct (Z.ltb_spec n 30000); [cbn; lia|].
  destruct (Z.ltb_spec n 2000000000); cbn; lia.
Qed.
Lemma index_fits2 n k : 0 <= n <= k -> k < 68719476731 * 1000 -> n < 2 ^ (index_width (index_size_type k) - 1).
Proof.
  intros H L. unfold index_size_type. destruct (Z.ltb_spec k 100); [cbn; lia|]. destruct (Z.ltb_spec k 30000); [cbn; lia|].
  destruct (Z.ltb_spec k 2000000000); cbn; lia.
Qed.
Lemma wrap_bad d : wrap (index_width d) (BAD_INDEX d) = BAD_INDEX d.
Proof. unfold BAD_INDEX. pose proof (width_pos d). apply wrap_id; [lia|]. pose proof (Z.pow_pos_nonneg 2 (index_width d - 1)). lia. Qed.
Lemma found_of_rows {A B} (e : A -> B -> Prop) d ys xs rs : member_spec e (BAD_INDEX d) ys xs rs ->
  Z.of_nat (length ys) <= 2 ^ (index_width d - 1) ->
  f_flags (found_of d rs) = map (fun p : bool * Z => if fst p then 1 else 0) rs /\ f_index (found_of d rs) = map snd rs /\ f_dtype (found_of d rs) = d.
Proof.
  intros M L. repeat split. cbn. apply map_ext_in. intros r I. destruct (member_rows_range _ _ _ _ _ M r I) as [E|E].
  - rewrite E. apply wrap_bad.
  - apply wrap_id; [apply width_pos|]. lia.
Qed.

(** ** Lookups *)
Section Lookup.
  Context (m : machine) (keq : Z -> Z -> bool) (ok : Z -> bool) (H : Z -> Z -> Z).
  Lemma find_members_eq w size a b get r :
    (let! t := sk_make keq ok H size b in
     lookup_rows (m_ord m) (threaded m (Z.of_nat (length a))) CHUNK (get t) a (false, 0)) = Ret r ->
    Z.of_nat (length b) < 2 ^ (w - 1) -> find_members m keq ok H w size a b get = Ret r.
  Proof using.
    intros E L. unfold find_members, counted. rewrite (proj2 (Z.ltb_lt _ _) L). destruct (sk_make keq ok H size b) as [t| |]; cbn [obind] in *; try discriminate.
    now rewrite E.
  Qed.
  Lemma categories_eq w size a b : Z.of_nat (length b) < 2 ^ (w - 1) -> Z.of_nat (length a) < 2 ^ (w - 1) ->
    categories_of keq ok H w size a b = is_member_cat keq ok H size a b.
  Proof using. intros L M. unfold categories_of, counted. rewrite (proj2 (Z.ltb_lt _ _) L), (proj2 (Z.ltb_lt _ _) M). reflexivity. Qed.
End Lookup.

Lemma room_entries {K} mode f hint (b : list K) : room hint (Z.of_nat (length b)) ->
  entries hint (Z.of_nat (length b)) < 68719476731 /\ fewer_than (AllocMemory mode f (entries hint (Z.of_nat (length b)))) b.
Proof.
  intros (L & R). unfold entries. assert (E : 0 <= (if hint =? 0 then Z.of_nat (length b) else hint) < 68719476731 /\
    Z.of_nat (length b) <= (if hint =? 0 then Z.of_nat (length b) else hint)) by (destruct (Z.eqb_spec hint 0); lia).
  destruct E as (E & F). split; [lia|]. apply fewer_length. pose proof (alloc_gt mode f _ E). lia.
Qed.

(** equality of the bits of items for a size with a table *)
Definition bits_eq (sizeType : Z) (x y : Z) : Prop :=
  if sizeType =? 104 then feq_bits 32 8 x y = true else if sizeType =? 108 then feq_bits 64 11 x y = true else x = y.
Definition has_table (s : Z) : Prop := s = 1 \/ s = 2 \/ s = 4 \/ s = 8 \/ s = 104 \/ s = 108.
Definition bits_ok (s : Z) (xs : list Z) : Prop :=
  (s = 1 \/ s = 2 -> bits (8 * s) xs) /\ (s = 104 -> one_zero 32 8 xs) /\ (s = 108 -> one_zero 64 11 xs).

Lemma members_number m d s mode hint a b : fair (m_ord m) -> has_table s -> bits_ok s (a ++ b) -> room hint (Z.of_nat (length b)) ->
  Z.of_nat (length b) < 2 ^ (index_width d - 1) ->
  exists rs, IsMemberHash32 m d s mode hint a b = Ret (Some rs) /\ member_spec (bits_eq s) (BAD_INDEX d) b a rs.
Proof.
  intros Fo Hs (B1 & B4 & B8) R L.
  destruct (room_entries mode false hint b R) as (En & Fw). destruct (room_entries mode true hint b R) as (_ & Fw').
  destruct Hs as [-> | [-> | [-> | [-> | [-> | ->]]]]]; unfold IsMemberHash32.
  - destruct (IsMember_small_ok 1 (m_ord m) (threaded m (Z.of_nat (length a))) (BAD_INDEX d) a b) as (r & E & M); auto.
    exists r. split; [|exact M]. unfold IsMember_small in E. rewrite (find_members_eq _ _ _ _ _ _ _ _ _ r E L). reflexivity.
  - destruct (IsMember_small_ok 2 (m_ord m) (threaded m (Z.of_nat (length a))) (BAD_INDEX d) a b) as (r & E & M); auto.
    exists r. split; [|exact M]. unfold IsMember_small in E. rewrite (find_members_eq _ _ _ _ _ _ _ _ _ r E L). reflexivity.
  - destruct (okt_ret_inv _ _ _ (IsMember_int_ok (m_crc m) 4 (m_ord m) (threaded m (Z.of_nat (length a))) mode hint (BAD_INDEX d) a b Fo En)) as (r & E & M); [exact (fun N => N Fw)|].
    exists r. split; [|exact M]. unfold IsMember_int, is_member in E. unfold members_of. rewrite (find_members_eq _ _ _ _ _ _ _ _ _ r E L). reflexivity.
  - destruct (okt_ret_inv _ _ _ (IsMember_int_ok (m_crc m) 8 (m_ord m) (threaded m (Z.of_nat (length a))) mode hint (BAD_INDEX d) a b Fo En)) as (r & E & M); [exact (fun N => N Fw)|].
    exists r. split; [|exact M]. unfold IsMember_int, is_member in E. unfold members_of. rewrite (find_members_eq _ _ _ _ _ _ _ _ _ r E L). reflexivity.
  - destruct (okt_ret_inv _ _ _ (IsMember_f32_ok (m_ord m) (threaded m (Z.of_nat (length a))) mode hint (BAD_INDEX d) a b Fo En (B4 eq_refl))) as (r & E & M); [exact (fun N => N Fw')|].
    exists r. split; [|exact M]. unfold IsMember_f32, is_member in E. unfold members_of. rewrite (find_members_eq _ _ _ _ _ _ _ _ _ r E L). reflexivity.
  - destruct (okt_ret_inv _ _ _ (IsMember_f64_ok (m_ord m) (threaded m (Z.of_nat (length a))) mode hint (BAD_INDEX d) a b Fo En (B8 eq_refl))) as (r & E & M); [exact (fun N => N Fw')|].
    exists r. split; [|exact M]. unfold IsMember_f64, is_member in E. unfold members_of. rewrite (find_members_eq _ _ _ _ _ _ _ _ _ r E L). reflexivity.
Qed.

Lemma mask_alloc n : 65536 <= AllocMemory MASK false n.
Proof. unfold AllocMemory. destruct (Z.ltb_spec (GetHashSize MASK (n * 2)) 65536); lia. Qed.

Lemma categories_number m d s mode hint a b : has_table s -> bits_ok s (a ++ b) -> (s = 1 \/ s = 2 -> mode = MASK) -> room hint (Z.of_nat (length b)) ->
  Z.of_nat (length b) < 2 ^ (index_width d - 1) -> Z.of_nat (length a) < 2 ^ (index_width d - 1) ->
  exists r, IsMemberHashCategorical m d s mode hint a b = Ret (Some r) /\ member_cat_spec (bits_eq s) b a r.
Proof.
  intros Hs (B1 & B4 & B8) Hm R L La.
  destruct (room_entries mode false hint b R) as (En & Fw). destruct (room_entries mode true hint b R) as (_ & Fw').
  assert (Small : s = 1 \/ s = 2 -> exists r, IsMemberCategorical_small mode hint a b = Ret r /\ member_cat_spec eq b a r).
  { intros S12. rewrite (Hm S12) in *.
    destruct (okt_ret_inv _ _ _ (IsMemberCategorical_small_ok MASK hint a b En ltac:(
      intros x Ix; specialize (B1 S12 x Ix); pose proof (mask_alloc (entries hint (Z.of_nat (length b)))); destruct S12 as [-> | ->];
      change (2 ^ (8 * 1)) with 256 in *; change (2 ^ (8 * 2)) with 65536 in *; lia))) as (r & E & M); [exact (fun N => N Fw)|eauto]. }
  destruct Hs as [-> | [-> | [-> | [-> | [-> | ->]]]]]; unfold IsMemberHashCategorical.
  - destruct (Small ltac:(lia)) as (r & E & M). exists r. split; [|exact M]. rewrite categories_eq by auto. unfold IsMemberCategorical_small in E. now rewrite E.
  - destruct (Small ltac:(lia)) as (r & E & M). exists r. split; [|exact M]. rewrite categories_eq by auto. unfold IsMemberCategorical_small in E. now rewrite E.
  - destruct (okt_ret_inv _ _ _ (IsMemberCategorical_int_ok (m_crc m) 4 mode hint a b En)) as (r & E & M); [exact (fun N => N Fw)|].
    exists r. split; [|exact M]. rewrite categories_eq by auto. unfold IsMemberCategorical_int in E. now rewrite E.
  - destruct (okt_ret_inv _ _ _ (IsMemberCategorical_int_ok (m_crc m) 8 mode hint a b En)) as (r & E & M); [exact (fun N => N Fw)|].
    exists r. split; [|exact M]. rewrite categories_eq by auto. unfold IsMemberCategorical_int in E. now rewrite E.
  - pose proof (alloc_pos mode true _ En) as P.
    destruct (okt_ret_inv _ _ _ (float_member_cat 32 8 (hash_float32 mode) _ a b (fun x _ => f32_range mode _ x P) P (B4 eq_refl))) as (r & E & M); [exact (fun N => N Fw')|].
    exists r. split; [|exact M]. rewrite categories_eq by auto. now rewrite E.
  - pose proof (alloc_pos mode true _ En) as P.
    destruct (okt_ret_inv _ _ _ (float_member_cat 64 11 (hash_float64 mode) _ a b (fun x _ => f64_range mode _ x P) P (B8 eq_refl))) as (r & E & M); [exact (fun N => N Fw')|].
    exists r. split; [|exact M]. rewrite categories_eq by auto. now rewrite E.
Qed.
