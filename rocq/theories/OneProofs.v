(** Proofs about operations on the items of one array: the memory. *)
From Verif Require Import RedModel.
From Verif Require Import Base MemLemmas ConvModel TwoModel UnaryModel.
From Verif Require Import LayoutModel.
From Verif Require Import StackModel StackProofs OneModel.
Local Open Scope Z_scope.

(** ** Bytes *)
Lemma store_ok off y m : 0 <= off -> off + len y <= len m -> exists m', store off y m = Some m'.
Proof. intros A B. unfold store. replace ((0 <=? off) && (off + len y <=? len m)) with true by lia. eauto. Qed.
Lemma load_ok off n m : 0 <= off -> 0 <= n -> off + n <= len m -> exists x, load off n m = Some x /\ len x = n.
Proof. intros A B C. destruct (split3 m off n) as (a & x & b & -> & L1 & L2); auto. exists x. split; auto. apply load_mid; auto. Qed.
Lemma store_byte off y m m' p : store off y m = Some m' -> 0 <= p ->
  nth_error m' (Z.to_nat p) = if (off <=? p) && (p <? off + len y) then nth_error y (Z.to_nat (p - off)) else nth_error m (Z.to_nat p).
Proof.
  intros H P. apply store_inv in H as (a & x & b & -> & L1 & L2 & ->). unfold len in *.
  destruct (Z.leb_spec off p); cbn [andb].
  - rewrite !(nth_error_app2 a) by lia. destruct (Z.ltb_spec p (off + Z.of_nat (length y))).
    + rewrite nth_error_app1 by lia. f_equal. lia.
    + rewrite !nth_error_app2 by lia. f_equal. lia.
  - rewrite !nth_error_app1 by lia. reflexivity.
Qed.
Lemma load_byte off n m x p : load off n m = Some x -> 0 <= p < n -> nth_error x (Z.to_nat p) = nth_error m (Z.to_nat (off + p)).
Proof.
  intros H P. apply load_inv in H as (a & b & -> & L1 & L2). unfold len in *. rewrite nth_error_app2, nth_error_app1 by lia. f_equal. lia.
Qed.
Lemma bytes_ext x y : len x = len y -> (forall p, 0 <= p < len x -> nth_error x (Z.to_nat p) = nth_error y (Z.to_nat p)) -> x = y.
Proof.
  intros L H. apply list_ext. intros i. destruct (Nat.lt_ge_cases i (length x)) as [C|C].
  - rewrite <- (Nat2Z.id i). apply H. unfold len. lia.
  - rewrite (proj2 (nth_error_None x i)) by lia. symmetry. apply nth_error_None. unfold len in L. lia.
Qed.
Lemma load_same off n m m' x : load off n m = Some x -> len m = len m' -> (forall p, off <= p < off + n -> nth_error m (Z.to_nat p) = nth_error m' (Z.to_nat p)) -> load off n m' = Some x.
Proof.
  intros H L E. pose proof H as H0. apply load_inv in H0 as (a & b & Em & L1 & L2). pose proof (len_pos a). pose proof (len_pos x).
  assert (B : off + n <= len m). { rewrite Em, !len_app. pose proof (len_pos b). lia. }
  destruct (load_ok off n m') as (y & Y & Ly); try lia. rewrite Y. f_equal. apply bytes_ext; [lia|]. intros p P.
  rewrite (load_byte _ _ _ _ p Y), (load_byte _ _ _ _ p H) by lia. symmetry. apply E. lia.
Qed.
Lemma load_part off n m x j k y : load off n m = Some x -> load j k x = Some y -> load (off + j) k m = Some y.
Proof.
  intros H G. apply load_inv in H as (a & b & -> & L1 & L2). apply load_inv in G as (c & d & -> & L3 & L4).
  replace (a ++ (c ++ y ++ d) ++ b) with ((a ++ c) ++ y ++ (d ++ b)) by (now rewrite <- !app_assoc). apply load_mid; rewrite ?len_app; lia.
Qed.
Lemma load_stored off y m m' j k z : store off y m = Some m' -> load j k y = Some z -> load (off + j) k m' = Some z.
Proof.
  intros H G. apply store_inv in H as (a & x & b & -> & L1 & L2 & ->). apply (load_part off (len y) _ y j k z); auto. apply load_mid; auto.
Qed.

(** ** Registers *)
Lemma lane_bytes t (F : list Z -> list Z) w : forall count x, 0 <= w -> len x = Z.of_nat count * w -> size t = w ->
  (forall y, len y = w -> len (F y) = w) ->
  len (concat (map F (chunks count (Z.to_nat w) x))) = Z.of_nat count * w /\
  forall j y, 0 <= j < Z.of_nat count -> load (j * w) w x = Some y -> load (j * w) w (concat (map F (chunks count (Z.to_nat w) x))) = Some (F y).
Proof.
  induction count as [|n IH]; intros x W L Sz Fl. { split; [reflexivity|intros; lia]. }
  cbn [chunks map concat]. set (u := firstn (Z.to_nat w) x). set (v := skipn (Z.to_nat w) x).
  assert (Lu : len u = w) by (unfold u, len in *; rewrite firstn_length; lia).
  assert (Lv : len v = Z.of_nat n * w) by (unfold v, len in *; rewrite skipn_length; lia).
  assert (Ex : x = u ++ v) by (symmetry; apply firstn_skipn). destruct (IH v W Lv Sz Fl) as [I1 I2]. split.
  - rewrite len_app, I1, Fl by exact Lu. lia.
  - intros j y J H. rewrite Ex in H. destruct (Z.eq_dec j 0) as [->|Nj].
    + rewrite Z.mul_0_l in *. pose proof (load_mid [] u v 0 w eq_refl (eq_sym Lu)) as M. cbn [app] in M. rewrite M in H. injection H as <-.
      apply (load_mid [] (F u)); auto. symmetry. auto.
    + assert (H2 : load ((j - 1) * w) w v = Some y).
      { destruct (load_ok ((j - 1) * w) w v) as (y' & Y & _); [nia|auto|nia|]. pose proof (load_part w (len v) (u ++ v) v ((j - 1) * w) w y') as P.
        replace (w + (j - 1) * w) with (j * w) in P by ring. rewrite Y. rewrite P in H; auto. pose proof (load_mid u v [] w (len v)) as M. rewrite app_nil_r in M. apply M; auto. }
      apply I2 in H2; [|lia]. set (r := concat _) in *. assert (Lf : len (F u) = w) by auto.
      pose proof (load_part w (len r) (F u ++ r) r ((j - 1) * w) w (F y)) as P. replace (w + (j - 1) * w) with (j * w) in P by ring. apply P; auto.
      pose proof (load_mid (F u) r [] w (len r)) as M. rewrite app_nil_r in M. apply M; auto.
Qed.
Lemma lanes_ok t : In t [I8; U8; I16; U16; I32; U32; I64; U64; F32; F64] -> 1 <= lanes t /\ lanes t * size t = 32 /\ 1 <= size t.
Proof. intros H. repeat (destruct H as [<-|H]; [vm_compute; repeat split; discriminate|]). destruct H. Qed.
Lemma each_lane_ok t g x : In t [I8; U8; I16; U16; I32; U32; I64; U64; F32; F64] -> len x = 32 -> (forall y, len y = size t -> len (g (dec t y)) = size t) ->
  len (each_lane t g x) = 32 /\ forall j y, 0 <= j < lanes t -> load (j * size t) (size t) x = Some y -> load (j * size t) (size t) (each_lane t g x) = Some (g (dec t y)).
Proof.
  intros T L G. destruct (lanes_ok t T) as (L1 & L2 & L3). unfold each_lane.
  destruct (lane_bytes t (fun y => g (dec t y)) (size t) (Z.to_nat (lanes t)) x) as [A B]; auto; try lia.
  rewrite Z2Nat.id in A, B by lia. split; [lia|]. intros j y J H. apply (B j y); auto.
Qed.

(** ** The loop *)
Section Walk.
  Variables (c : clib) (o : op) (t : dtype) (im : list Z) (ib s : Z) (n ob inner stride_out so : Z).
  Variable R : list Z -> list Z -> Prop.
  Hypothesis T : In t [I8; U8; I16; U16; I32; U32; I64; U64; F32; F64].
  Hypothesis So : inner * stride_out = so.
  Hypothesis In_ : forall i, 0 <= i < n -> exists x, load (ib + i * s) (size t) im = Some x /\ len x = size t /\ exists y, calculate c o t x = Some y /\ len y = size t /\ R x y.
  Hypothesis Wide : forall v, simd_implementation o = true -> wide o t = Some v -> s = size t -> so = size t /\ exists g, v = each_lane t g /\ (forall y, len y = size t -> len (g (dec t y)) = size t) /\
    forall i x, 0 <= i < n -> load (ib + i * s) (size t) im = Some x -> R x (g (dec t x)).
  Hypothesis Apart : size t <= Z.abs so \/ n <= 1.

  Definition good_at (om : list Z) (i : Z) : Prop := exists x y, load (ib + i * s) (size t) im = Some x /\ load (ob + i * so) (size t) om = Some y /\ R x y.
  Definition room (om : list Z) : Prop := forall i, 0 <= i < n -> 0 <= ob + i * so /\ ob + i * so + size t <= len om.
  Definition kept (a b : Z) (om om' : list Z) : Prop :=
    len om' = len om /\ forall p, 0 <= p -> (forall i, a <= i < b -> p < ob + i * so \/ ob + i * so + size t <= p) -> nth_error om' (Z.to_nat p) = nth_error om (Z.to_nat p).
  Lemma apart i j : 0 <= i < n -> 0 <= j < n -> i <> j -> ob + i * so + size t <= ob + j * so \/ ob + j * so + size t <= ob + i * so.
  Proof. intros A B N. destruct (lanes_ok t T) as (_ & _ & L3). destruct Apart as [H|H]; [|lia]. destruct (Z.lt_ge_cases so 0), (Z.lt_ge_cases i j); nia. Qed.
  Lemma good_kept om om' a b i : 0 <= a -> b <= n -> 0 <= i < n -> (i < a \/ b <= i) -> good_at om i -> kept a b om om' -> good_at om' i.
  Proof.
    intros A B I N (x & y & X & Y & Rxy) [K1 K2]. exists x, y. split; auto. split; auto. destruct (lanes_ok t T) as (_ & _ & L3).
    pose proof Y as Y0. apply load_inv in Y0 as (u & v & Eu & Lu & _). pose proof (len_pos u).
    apply (load_same _ _ om); auto. intros p P. symmetry. apply K2; [lia|]. intros j J. destruct (apart i j); lia.
  Qed.
  Lemma step_ok om off : 0 <= off < n -> room om ->
    exists om' k, perform_operation c o t im om (ib + off * s) (ob + off * inner * stride_out) off s n = Some (om', k) /\ 1 <= k /\ off + k <= n /\
      kept off (off + k) om om' /\ forall i, off <= i < off + k -> good_at om' i.
  Proof.
    intros I Rm. destruct (lanes_ok t T) as (L1 & L2 & L3). replace (ob + off * inner * stride_out) with (ob + off * so) by (rewrite <- So; ring). unfold perform_operation.
    assert (Single : exists om' k, match load (ib + off * s) (size t) im with Some x => match calculate c o t x with Some y => match store (ob + off * so) y om with Some om' => Some (om', 1) | None => None end | None => None end | None => None end = Some (om', k) /\ 1 <= k /\ off + k <= n /\
      kept off (off + k) om om' /\ forall i, off <= i < off + k -> good_at om' i).
    { destruct (In_ off I) as (x & X & Lx & y & C & Ly & Rxy). rewrite X, C. destruct (Rm off I) as [A B]. destruct (store_ok (ob + off * so) y om) as (om' & E); try lia. rewrite E.
      exists om', 1. split; auto. split; [lia|]. split; [lia|]. split.
      - split; [eapply store_len; eauto|]. intros p P H. rewrite (store_byte _ _ _ _ p E P). specialize (H off ltac:(lia)). replace ((ob + off * so <=? p) && (p <? ob + off * so + len y)) with false by lia. reflexivity.
      - intros i Hi. assert (i = off) by lia. subst i. exists x, y. split; auto. split; auto. rewrite <- (Z.add_0_r (ob + off * so)). eapply load_stored; eauto. pose proof (load_mid [] y [] 0 (size t)) as M. rewrite app_nil_r in M. apply M; auto. }
    destruct (simd_implementation o) eqn:Sm; cbn [andb]; [|exact Single]. destruct (Z.eqb_spec s (size t)) as [Es|]; cbn [andb]; [|exact Single].
    destruct (Z.ltb_spec (lanes t + off) n) as [Lt|]; [|exact Single]. destruct (wide o t) as [v|] eqn:W; [|exact Single]. clear Single.
    destruct (Wide v eq_refl eq_refl Es) as (Eso & g & -> & Gl & Gr).
    destruct (In_ off I) as (x0 & X0 & _). destruct (In_ (off + lanes t - 1)) as (x1 & X1 & _); [lia|].
    apply load_inv in X0 as (u0 & v0 & U0 & U1 & U2). apply load_inv in X1 as (u1 & v1 & U3 & U4 & U5). pose proof (len_pos u0). pose proof (len_pos v1).
    assert (Lm : len im = len u1 + (len x1 + len v1)) by (rewrite U3, !len_app; auto).
    destruct (load_ok (ib + off * s) 32 im) as (x & X & Lx); [lia|lia|rewrite Es in *; nia|]. rewrite X.
    destruct (each_lane_ok t g x T Lx Gl) as [E1 E2].
    destruct (Rm off I) as [A _]. destruct (Rm (off + lanes t - 1)) as [_ B]; [lia|]. rewrite Eso in *.
    destruct (store_ok (ob + off * size t) (each_lane t g x) om) as (om' & E); [lia|nia|]. rewrite E.
    exists om', (lanes t). split; auto. split; [lia|]. split; [lia|]. split.
    - split; [eapply store_len; eauto|]. intros p P H1. rewrite (store_byte _ _ _ _ p E P). rewrite E1.
      destruct ((ob + off * size t <=? p) && (p <? ob + off * size t + 32)) eqn:Q; auto. exfalso.
      set (q := (p - (ob + off * size t)) / size t). pose proof (Z.div_mod (p - (ob + off * size t)) (size t) ltac:(lia)) as D. fold q in D.
      pose proof (Z.mod_pos_bound (p - (ob + off * size t)) (size t) ltac:(lia)) as M. assert (0 <= q) by (apply Z.div_pos; lia). assert (q < lanes t) by (apply Z.div_lt_upper_bound; nia).
      specialize (H1 (off + q) ltac:(lia)). rewrite Eso in H1. replace ((off + q) * size t) with (off * size t + size t * q) in H1 by ring. lia.
    - intros i Hi. set (j := i - off). assert (J : 0 <= j < lanes t) by (unfold j; lia). destruct (load_ok (j * size t) (size t) x) as (y & Y & Ly); [nia|lia|nia|].
      assert (X' : load (ib + i * s) (size t) im = Some y). { replace (ib + i * s) with (ib + off * s + j * size t) by (unfold j; rewrite Es; ring). eapply load_part; eauto. }
      exists y, (g (dec t y)). split; auto. rewrite Eso. split; [|apply (Gr i); auto; lia]. replace (ob + i * size t) with (ob + off * size t + j * size t) by (unfold j; ring).
      eapply load_stored; eauto.
  Qed.
  Lemma walk_ok : forall fuel om off, 0 <= off <= n -> (Z.to_nat (n - off) < fuel)%nat -> room om ->
    exists om', walk_from fuel c o (Number t) inner n s stride_out im ib om ob off = Finished om' /\ kept off n om om' /\ forall i, off <= i < n -> good_at om' i.
  Proof.
    induction fuel as [|fuel IH]; intros om off I F Rm; [lia|]. cbn [walk_from]. destruct (Z.leb_spec n off).
    { exists om. split; auto. split; [split; auto|intros; lia]. }
    destruct (step_ok om off) as (om1 & k & E & K1 & K2 & [K3 K3'] & K4); auto; [lia|]. rewrite E.
    destruct (IH om1 (off + k)) as (om' & W & [Kl Kf] & G); [lia|lia| |]. { intros i Hi. rewrite K3. apply Rm; auto. }
    exists om'. split; auto. split.
    - split; [congruence|]. intros p P H1. rewrite Kf, K3'; auto; intros i Hi; apply H1; lia.
    - intros i Hi. destruct (Z.lt_ge_cases i (off + k)); [|apply G; lia]. apply (good_kept om1 om' (off + k) n); auto; try lia. { apply K4; lia. } split; auto.
  Qed.
End Walk.
