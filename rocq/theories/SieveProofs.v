(** Reading one array through a mask: the bytes. *)
From Verif Require Import Base MaskModel MaskSpec MaskProofs.
From Verif Require Import SdsModel SdsSpec SdsProofs Sds2Proofs SieveModel SieveSpec.
Local Open Scope Z_scope.

Lemma skipn_nth : forall {A} (d : A) n l, (n < length l)%nat -> skipn n l = nth n l d :: skipn (S n) l.
Proof. intros A d n. induction n as [|n IH]; intros [|x l] H; cbn [length] in H; try lia; [reflexivity|]. cbn [skipn nth]. rewrite IH by lia. reflexivity. Qed.
Lemma skipn_plus : forall {A} n m (l : list A), skipn n (skipn m l) = skipn (m + n) l.
Proof. intros A n m. induction m as [|m IH]; intros l; [reflexivity|]. destruct l; [now rewrite !skipn_nil|]. cbn [skipn Nat.add]. apply IH. Qed.
Lemma firstn_prefix : forall {A} n m (x y : list A), (n <= m)%nat -> firstn m x = firstn m y -> firstn n x = firstn n y.
Proof.
  intros A n m x y H E. replace n with (Nat.min n m) by lia. rewrite <- !firstn_firstn. now rewrite E.
Qed.

Section Rows.
Context (D : list Z) (bpr : nat) (mask : list Z).
Definition row (i : nat) : list Z := firstn bpr (skipn (i * bpr) D).
Definition on (i : nat) : bool := negb (nth i mask 0 =? 0).
Definition pick (a n : nat) : list Z := concat (map row (filter on (seq a n))).

Lemma pick_app : forall a n m, pick a (n + m) = pick a n ++ pick (a + n) m.
Proof. intros. unfold pick. now rewrite seq_app, filter_app, map_app, concat_app. Qed.
Lemma pick_S : forall a n, pick a (S n) = (if on a then row a else []) ++ pick (S a) n.
Proof. intros. unfold pick. cbn [seq filter]. destruct (on a); reflexivity. Qed.

Lemma sift_pick : forall s r x, (r + s <= length mask)%nat -> firstn (s * bpr) x = firstn (s * bpr) (skipn (r * bpr) D) ->
  sift bpr (firstn s (skipn r mask)) x = pick r s.
Proof.
  induction s as [|s IH]; intros r x H E; [reflexivity|].
  rewrite (skipn_nth 0 r mask) by lia. cbn [firstn sift]. rewrite pick_S. f_equal.
  - unfold on. destruct (nth r mask 0 =? 0); [reflexivity|]. cbn [negb]. apply (firstn_prefix bpr (S s * bpr)); [lia | exact E].
  - apply IH; [lia|]. assert (F := f_equal (skipn bpr) E). cbn [Nat.mul] in F. rewrite !skipn_firstn_comm in F. replace (bpr + s * bpr - bpr)%nat with (s * bpr)%nat in F by lia. rewrite skipn_plus in F. rewrite F. f_equal. f_equal. lia.
Qed.

Lemma filter_all : forall a n, (forall i, (a <= i < a + n)%nat -> on i = true) -> filter on (seq a n) = seq a n.
Proof.
  intros a n. revert a. induction n as [|n IH]; intros a H; [reflexivity|]. cbn [seq filter]. rewrite (H a) by lia. f_equal. apply IH. intros i Hi. apply H. lia.
Qed.
Lemma rows_all : forall n a, concat (map row (seq a n)) = firstn (n * bpr) (skipn (a * bpr) D).
Proof.
  induction n as [|n IH]; intros a; [reflexivity|]. cbn [seq map concat]. rewrite IH. unfold row.
  replace (S a * bpr)%nat with (a * bpr + bpr)%nat by lia. rewrite <- skipn_plus. set (y := skipn (a * bpr) D).
  replace (S n * bpr)%nat with (bpr + n * bpr)%nat by lia. clearbody y. generalize (n * bpr)%nat as m. clear. revert y.
  induction bpr as [|b IH]; intros y m; [reflexivity|]. destruct y as [|z y]; [cbn; now rewrite firstn_nil|]. cbn [firstn skipn Nat.add app]. f_equal. apply IH.
Qed.
Lemma pick_len : forall n a, ((a + n) * bpr <= length D)%nat -> length (pick a n) = (countb on (seq a n) * bpr)%nat.
Proof.
  induction n as [|n IH]; intros a H; [reflexivity|]. rewrite pick_S, app_length, IH by lia. cbn [seq countb].
  destruct (on a); [|cbn; lia]. unfold row. rewrite firstn_length, skipn_length. nia.
Qed.
Lemma count_on : forall s r, (r + s <= length mask)%nat -> countb set (firstn s (skipn r mask)) = countb on (seq r s).
Proof.
  induction s as [|s IH]; intros r H; [reflexivity|]. rewrite (skipn_nth 0 r mask) by lia. cbn [firstn countb seq]. rewrite IH by lia. reflexivity.
Qed.
End Rows.

Lemma pread_len : forall f o n bs, pread f o n = Some bs -> len bs = n.
Proof.
  intros f o n bs. unfold pread. destruct (n =? 0) eqn:Z0; [intros [= <-]; apply Z.eqb_eq in Z0; cbn; lia|].
  destruct ((0 <=? o) && (0 <? n) && (o + n <=? len f)) eqn:B; [|discriminate]. intros [= <-].
  apply andb_prop in B as [B B3]. apply andb_prop in B as [B1 B2]. apply Z.leb_le in B1, B3. apply Z.ltb_lt in B2.
  unfold len in *. rewrite firstn_length, skipn_length. lia.
Qed.
Lemma pread_prefix : forall f o n m bs, pread f o n = Some bs -> 0 <= m <= n -> pread f o m = Some (firstn (Z.to_nat m) bs).
Proof.
  intros f o n m bs E M. destruct (Z.eq_dec m 0) as [-> | M0]; [reflexivity|]. unfold pread in *. destruct (n =? 0) eqn:Z0; [apply Z.eqb_eq in Z0; lia|].
  destruct ((0 <=? o) && (0 <? n) && (o + n <=? len f)) eqn:B; [|discriminate]. injection E as <-.
  apply andb_prop in B as [B B3]. apply andb_prop in B as [B1 B2]. apply Z.leb_le in B1, B3. apply Z.ltb_lt in B2.
  replace (m =? 0) with false by (symmetry; apply Z.eqb_neq; lia). replace (0 <=? o) with true by (symmetry; apply Z.leb_le; lia).
  replace (0 <? m) with true by (symmetry; apply Z.ltb_lt; lia). replace (o + m <=? len f) with true by (symmetry; apply Z.leb_le; lia). cbn [andb].
  f_equal. rewrite firstn_firstn. f_equal. lia.
Qed.
Lemma countb_all : forall {A} (f : A -> bool) l, countb f l = length l -> forall x, In x l -> f x = true.
Proof.
  intros A f l. induction l as [|y l IH]; intros E x H; [destruct H|]. cbn [countb length] in E. pose proof (countb_le_length f l).
  destruct (f y) eqn:F; [|lia]. destruct H as [-> | H]; [assumption|]. apply IH; [lia | assumption].
Qed.

(* what the section of u bytes at off is without a mask *)
Definition holds (k : codec) (f : file) (c u off : Z) (x : list Z) : Prop :=
  len x = u /\ ((c = u /\ pread f off c = Some x) \/ (c <> u /\ exists bs, pread f off c = Some bs /\ decomp k bs = Some x)).

Section Read.
Context (k : codec) (part : Z -> list Z -> list Z) (f : file) (PK : part_ok k part).
Context (mask : list Z) (MB : Forall is_byte mask).
Context (D : list Z) (bpr : nat) (BP : (0 < bpr)%nat).
Notation trues := (Z.of_nat (countb set mask)).
Notation L := (length mask).

Lemma part_all : forall bs x, decomp k bs = Some x -> part (len x) bs = x.
Proof.
  intros bs x E. pose proof (proj2 PK bs x (len x) (len bs) E) as P. unfold len in *. rewrite !Nat2Z.id, !firstn_all in P. apply P; lia.
Qed.
Lemma holds_read : forall c u off x, holds k f c u off x ->
  (if c =? u then pread f off u else do bs <- pread f off c; if len (part u bs) =? u then Some (part u bs) else None) = Some x.
Proof.
  intros c u off x [LX [[-> P] | [NE [bs [P DC]]]]].
  - now rewrite Z.eqb_refl.
  - replace (c =? u) with false by (symmetry; now apply Z.eqb_neq). rewrite P. cbn zeta. rewrite <- LX, part_all by assumption. now rewrite Z.eqb_refl.
Qed.

Lemma section_rows_eq : forall s0 r, (r <= L)%nat ->
  section_rows (Z.of_nat s0 * Z.of_nat bpr) (Z.of_nat bpr) (Z.of_nat r) (len mask) = Z.of_nat (Nat.min s0 (L - r)).
Proof.
  intros s0 r H. unfold section_rows. rewrite Z.quot_mul by lia. unfold len. destruct (Z.of_nat L <? Z.of_nat r + Z.of_nat s0) eqn:E.
  - apply Z.ltb_lt in E. lia.
  - apply Z.ltb_ge in E. lia.
Qed.

Lemma filtered_ok : forall c s0 off r x, holds k f c (Z.of_nat s0 * Z.of_nat bpr) off x -> x = firstn (s0 * bpr) (skipn (r * bpr) D) ->
  (r <= L)%nat -> 0 < trues ->
  DecompressWithFilter k part f c (Z.of_nat s0 * Z.of_nat bpr) off (Z.of_nat bpr) mask trues (Z.of_nat r) = PWrote (pick D bpr mask r (Nat.min s0 (L - r))).
Proof.
  intros c s0 off r x H EX RL T. unfold DecompressWithFilter. replace (Z.of_nat bpr =? 0) with false by (symmetry; apply Z.eqb_neq; lia).
  cbn zeta. match goal with |- (if ?b then _ else _) = _ => destruct b eqn:SP end.
  - apply andb_prop in SP as [SP S4]. apply andb_prop in SP as [SP S3]. apply andb_prop in SP as [S1 S2].
    apply Z.eqb_eq in S1, S3. apply Z.leb_le in S2, S4. assert (r = O) by lia. subst r.
    assert (LS : (L < s0)%nat).
    { destruct s0 as [|s]; [|].
      - replace (Z.of_nat 0 * Z.of_nat bpr - Z.of_nat bpr) with (- Z.of_nat bpr) in S2 by lia. rewrite Z.quot_opp_l, Z.quot_same in S2 by lia. unfold len in S2. lia.
      - replace (Z.of_nat (S s) * Z.of_nat bpr - Z.of_nat bpr) with (Z.of_nat s * Z.of_nat bpr) in S2 by lia. rewrite Z.quot_mul in S2 by lia. unfold len in S2. lia. }
    assert (PE : pick D bpr mask 0 (Nat.min s0 (L - 0)) = firstn (L * bpr) x).
    { rewrite Nat.sub_0_r, Nat.min_r by lia. unfold pick. rewrite filter_all.
      - rewrite rows_all, EX, firstn_firstn. f_equal. nia.
      - intros i Hi. assert (CA := countb_all set mask ltac:(unfold len in S3; lia) (nth i mask 0) ltac:(apply nth_In; lia)). exact CA. }
    rewrite PE. assert (LB : Z.of_nat bpr * len mask = Z.of_nat (L * bpr)) by (unfold len; lia). rewrite LB.
    assert (LU : Z.of_nat (L * bpr) < Z.of_nat s0 * Z.of_nat bpr) by nia.
    destruct H as [LX [[-> P] | [NE [bs [P DC]]]]].
    + rewrite Z.eqb_refl. rewrite (pread_prefix _ _ _ _ _ P) by lia. now rewrite Nat2Z.id.
    + replace (c =? Z.of_nat s0 * Z.of_nat bpr) with false by (symmetry; now apply Z.eqb_neq).
      pose proof (pread_len _ _ _ _ P) as CL.
      set (wc := bound k (Z.of_nat (L * bpr)) + 2 * 65536). set (c' := if wc <? c then wc else c).
      assert (B0 : 0 <= bound k (Z.of_nat (L * bpr))) by (apply (proj1 PK); lia).
      assert (C0 : 0 <= c) by (rewrite <- CL; unfold len; lia).
      assert (C' : 0 <= c' <= c) by (unfold c'; destruct (Z.ltb_spec wc c); unfold wc in *; lia).
      rewrite (pread_prefix _ _ _ _ _ P C'). replace (Z.of_nat s0 * Z.of_nat bpr <=? Z.of_nat (L * bpr)) with false by (symmetry; apply Z.leb_gt; lia).
      rewrite (proj2 PK bs x (Z.of_nat (L * bpr)) c' DC).
      * rewrite Nat2Z.id. replace (len (firstn (L * bpr) x) =? Z.of_nat (L * bpr)) with true; [reflexivity|]. symmetry. apply Z.eqb_eq. unfold len in *. rewrite firstn_length. lia.
      * lia.
      * unfold c'. destruct (Z.ltb_spec wc c); unfold wc in *; lia.
  - replace (len mask <? Z.of_nat r) with false by (symmetry; apply Z.ltb_ge; unfold len; lia). replace (0 <? trues) with true by (symmetry; now apply Z.ltb_lt).
    rewrite (holds_read _ _ _ _ H). f_equal. rewrite section_rows_eq by assumption. unfold sub_mask. rewrite !Nat2Z.id. apply sift_pick; [lia|].
    rewrite EX. rewrite firstn_firstn. f_equal. nia.
Qed.

Lemma byte_sub : forall n r, Forall is_byte (firstn n (skipn r mask)).
Proof.
  intros n r. apply Forall_forall. intros x H. apply (proj1 (Forall_forall _ _) MB). rewrite <- (firstn_skipn r mask). apply in_or_app. right.
  rewrite <- (firstn_skipn n (skipn r mask)). apply in_or_app. now left.
Qed.
Lemma sum_sub : forall s r, (r + s <= L)%nat -> SumBooleanMask (sub_mask mask (Z.of_nat r) (Z.of_nat s)) = Some (Z.of_nat (countb (on mask) (seq r s))).
Proof. intros s r H. unfold sub_mask. rewrite !Nat2Z.id, SumBooleanMask_ok by apply byte_sub. now rewrite count_on by lia. Qed.
Lemma pick_none : forall s r, countb (on mask) (seq r s) = O -> pick D bpr mask r s = [].
Proof.
  intros s r H. unfold pick. assert (E : filter (on mask) (seq r s) = []); [|now rewrite E].
  rewrite countb_length_filter in H. destruct (filter (on mask) (seq r s)); [reflexivity | discriminate H].
Qed.

Lemma read_bands_prefix : forall ends prev off b usize done out, read_bands k f ends prev off b usize done = Some out -> exists z, out = done ++ z.
Proof.
  induction ends as [|e ends IH]; intros prev off b usize done out R; [cbn in R; injection R as <-; exists []; now rewrite app_nil_r|].
  cbn [read_bands] in R. destruct (pread f off (e - prev)) as [y|]; [|discriminate R].
  match type of R with match ?w with Some _ => _ | None => _ end = _ => destruct w as [x|]; [|discriminate R] end.
  apply IH in R as [z ->]. exists (x ++ z). now rewrite app_assoc.
Qed.
Lemma bands_ok : forall ends i prev off bs usize done row,
  read_bands k f ends prev off (bs * Z.of_nat bpr) usize done = Some D -> len D = usize ->
  (exists d, len D = Z.of_nat d * Z.of_nat bpr) -> len done = bs * Z.of_nat bpr * Z.of_nat i ->
  (row = Z.to_nat (bs * Z.of_nat i) \/ L = row)%nat -> (row <= L)%nat -> 0 < trues -> firstn (length done) D = done ->
  filter_bands k part f ends (Z.of_nat i) prev off (Z.of_nat bpr) bs usize mask trues (Z.of_nat row) = PWrote (pick D bpr mask row (Nat.min (length D / bpr) L - row)).
Proof.
  induction ends as [|e ends IH]; intros i prev off bs usize done row R LD [d ED] LI RW RL T PD.
  - cbn in R. injection R as ->. cbn [filter_bands]. f_equal. assert (ld : length D = (d * bpr)%nat) by (unfold len in ED; lia).
    rewrite ld, Nat.div_mul by lia. assert (DI : Z.of_nat d = bs * Z.of_nat i) by nia.
    replace (Nat.min d L - row)%nat with O by lia. reflexivity.
  - cbn [filter_bands]. replace (Z.of_nat bpr =? 0) with false by (symmetry; apply Z.eqb_neq; lia).
    assert (ld : length D = (d * bpr)%nat) by (unfold len in ED; lia). rewrite ld, Nat.div_mul by lia.
    destruct (len mask <=? Z.of_nat row) eqn:LE.
    { apply Z.leb_le in LE. unfold len in LE. replace (Nat.min d L - row)%nat with O by lia. reflexivity. }
    apply Z.leb_gt in LE. unfold len in LE. destruct RW as [RW | RW]; [|lia].
    cbn [read_bands] in R.
    assert (UE : (match ends with [] => usize - len done | _ :: _ => bs * Z.of_nat bpr end) = (match ends with [] => usize - bs * Z.of_nat bpr * Z.of_nat i | _ :: _ => bs * Z.of_nat bpr end))
      by (destruct ends; [rewrite LI; reflexivity | reflexivity]).
    rewrite UE in R. set (u := match ends with [] => _ | _ :: _ => _ end) in *.
    destruct (pread f off (e - prev)) as [y|] eqn:P; [|discriminate R].
    match type of R with context [if ?b then Some y else ?q] => set (w := if b then Some y else q) in * end.
    destruct w as [x|] eqn:W; [|discriminate R].
    assert (H : holds k f (e - prev) u off x).
    { unfold w in W. destruct (e - prev =? u) eqn:CU.
      - apply Z.eqb_eq in CU. injection W as <-. split; [rewrite <- CU; exact (pread_len _ _ _ _ P) | left; auto].
      - apply Z.eqb_neq in CU. destruct (decomp k y) as [z|] eqn:DC; [|discriminate W]. destruct (len z =? u) eqn:LZ; [|discriminate W].
        injection W as ->. apply Z.eqb_eq in LZ. split; [assumption | right; eauto]. }
    clearbody w. assert (LX := proj1 H).
    destruct (read_bands_prefix _ _ _ _ _ _ _ R) as [z DZ].
    assert (LDone : length done = (row * bpr)%nat).
    { assert (0 <= bs * Z.of_nat i) by (unfold len in LI; nia). unfold len in LI. nia. }
    assert (US : exists s0, u = Z.of_nat s0 * Z.of_nat bpr /\ (row + s0 <= d)%nat /\ (ends <> [] -> Z.of_nat s0 = bs) /\ (ends = [] -> (row + s0 = d)%nat)).
    { assert (LZ : length D = (length done + length x + length z)%nat) by (rewrite DZ, !app_length; lia).
      unfold u in *. unfold len in *. destruct ends as [|e' ends].
      - exists (d - row)%nat. split; [nia|]. split; [nia|]. split; [congruence | nia].
      - exists (Z.to_nat bs). split; [nia|]. split; [nia|]. split; [nia | discriminate]. }
    destruct US as [s0 [US [RS [BS LS]]]]. rewrite US in *.
    assert (EX : x = firstn (s0 * bpr) (skipn (row * bpr) D)).
    { rewrite DZ, <- app_assoc, <- LDone, skipn_app, skipn_all, Nat.sub_diag. cbn [app skipn]. rewrite firstn_app.
      replace (s0 * bpr - length x)%nat with O by (unfold len in LX; lia). cbn [firstn]. rewrite app_nil_r. symmetry. apply firstn_all2. unfold len in LX. lia. }
    rewrite section_rows_eq by assumption. set (s := Nat.min s0 (L - row)).
    rewrite sum_sub by (unfold s; lia).
    replace (Z.of_nat row + Z.of_nat s) with (Z.of_nat (row + s)) by lia. replace (Z.of_nat i + 1) with (Z.of_nat (S i)) by lia.
    assert (REST : filter_bands k part f ends (Z.of_nat (S i)) e (off + (e - prev)) (Z.of_nat bpr) bs usize mask trues (Z.of_nat (row + s))
                   = PWrote (pick D bpr mask (row + s) (Nat.min d L - (row + s)))).
    { destruct ends as [|e' ends]; [cbn [filter_bands]; specialize (LS eq_refl); replace (Nat.min d L - (row + s))%nat with O by (unfold s; lia); reflexivity|].
      specialize (BS ltac:(discriminate)).
      replace d with (length D / bpr)%nat by (rewrite ld, Nat.div_mul by lia; reflexivity).
      apply (IH (S i) e (off + (e - prev)) bs usize (done ++ x) (row + s)%nat); try assumption; eauto.
      - unfold len in *. rewrite app_length. nia.
      - unfold s. destruct (Nat.min_spec s0 (L - row)) as [[? ->] | [? ->]]; [left; nia | right; lia].
      - unfold s. lia.
      - rewrite DZ, firstn_app, Nat.sub_diag, firstn_all. cbn. now rewrite app_nil_r. }
    rewrite REST.
    assert (SP : pick D bpr mask row (Nat.min d L - row) = pick D bpr mask row s ++ pick D bpr mask (row + s) (Nat.min d L - (row + s))).
    { rewrite <- pick_app. f_equal. unfold s. lia. }
    destruct (Z.eqb_spec (Z.of_nat (countb (on mask) (seq row s))) 0) as [Z0 | NZ].
    + rewrite SP, (pick_none s row) by lia. reflexivity.
    + rewrite (filtered_ok _ _ _ _ _ H EX) by lia. fold s. replace (len (pick D bpr mask row s) =? _) with true; [now rewrite SP|].
      symmetry. apply Z.eqb_eq. unfold len. rewrite pick_len by (rewrite ld; unfold s; nia). lia.
Qed.
End Read.
