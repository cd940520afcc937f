(** Proofs about arrays made of lists. *)
From Verif Require Import Base LstModel LstSpec.
Local Open Scope Z_scope.

Lemma same_text_refl a : same_text a a. Proof. intros i. reflexivity. Qed.
Lemma same_text_zeros s n : same_text (s ++ repeat 0 n) s.
Proof.
  intros i. destruct (Nat.lt_ge_cases i (length s)) as [L|L]; [now rewrite app_nth1|]. rewrite app_nth2, (nth_overflow s) by assumption. apply nth_repeat.
Qed.
Lemma write_mid a b c xs p : length a = p -> length b = length xs -> write (a ++ b ++ c) p xs = Some (a ++ xs ++ c).
Proof.
  intros A B. unfold write. rewrite !app_length. destruct (Nat.leb_spec (p + length xs) (length a + (length b + length c))); [|lia]. f_equal. f_equal.
  - rewrite firstn_app, <- A, firstn_all, Nat.sub_diag, firstn_O, app_nil_r. reflexivity.
  - f_equal. rewrite <- B, <- A. rewrite !skipn_app. rewrite (skipn_all2 a) by lia. rewrite (skipn_all2 b) by lia. replace (_ - length a - length b)%nat with 0%nat by lia. reflexivity.
Qed.
Lemma max_bound l : forall m v, (In v l -> (psize v <= fold_left (fun m v => if (m <? psize v)%nat then psize v else m) l m)%nat) /\ (m <= fold_left (fun m v => if (m <? psize v)%nat then psize v else m) l m)%nat.
Proof.
  induction l as [|x l IH]; intros m v; cbn [fold_left In]; [split; [intros []|lia]|]. destruct (IH (if (m <? psize x)%nat then psize x else m) v) as [I1 I2].
  destruct (Nat.ltb_spec m (psize x)); split; try lia; intros [<- | I]; try lia; auto.
Qed.
Lemma max_ge l v : In v l -> (psize v <= FindMaxSize l)%nat. Proof. apply max_bound. Qed.
Lemma max_in l : forall m, let M := fold_left (fun m v => if (m <? psize v)%nat then psize v else m) l m in M = m \/ exists v, In v l /\ psize v = M.
Proof.
  induction l as [|x l IH]; intros m; cbn [fold_left]; [now left|]. cbn zeta. destruct (IH (if (m <? psize x)%nat then psize x else m)) as [E|(v & I & E)].
  - destruct (Nat.ltb_spec m (psize x)); [right; exists x; split; [now left|congruence]|now left].
  - right. exists v. split; [now right|exact E].
Qed.

Lemma skipn_twice {A} n : forall m (l : list A), skipn m (skipn n l) = skipn (n + m) l.
Proof. induction n as [|n IH]; intros m l; [reflexivity|]. destruct l; cbn [skipn Nat.add]; [apply skipn_nil|apply IH]. Qed.
Definition pad (max : nat) (s : list Z) : list Z := s ++ repeat 0 (max - length s).
Lemma pad_len max s : (length s <= max)%nat -> length (pad max s) = max.
Proof. intros. unfold pad. rewrite app_length, repeat_length. lia. Qed.
Lemma split_at (b : list Z) n : b = firstn n b ++ skipn n b. Proof. symmetry. apply firstn_skipn. Qed.
Lemma put_bytes_ok max : forall ss a b i, (forall s, In s ss -> (length s <= max)%nat) -> length a = (i * max)%nat -> length b = (length ss * max)%nat ->
  put_bytes max (a ++ b) i (map VBytes ss) = Some (a ++ concat (map (pad max) ss)).
Proof.
  induction ss as [|s ss IH]; intros a b i L A B; cbn [map put_bytes concat].
  - destruct b; [reflexivity|discriminate].
  - assert (LS : (length s <= max)%nat) by (apply L; now left). cbn [length] in B.
    rewrite (split_at b (length s)). rewrite write_mid by (try rewrite firstn_length; lia). cbn [obind].
    rewrite (split_at (skipn (length s) b) (max - length s)). rewrite (app_assoc a s).
    rewrite write_mid by (rewrite ?app_length, ?repeat_length, ?firstn_length, ?skipn_length; lia). cbn [obind].
    rewrite <- !app_assoc. rewrite (app_assoc s). fold (pad max s). rewrite (app_assoc a).
    rewrite IH.
    + now rewrite <- app_assoc.
    + intros; apply L; now right.
    + rewrite app_length, pad_len by assumption. lia.
    + rewrite !skipn_length. lia.
Qed.
Definition scell (max : nat) (s b : list Z) : list Z := s ++ if (length s <? max)%nat then 0 :: firstn (max - S (length s)) (skipn (S (length s)) b) else [].
Fixpoint scells (max : nat) (b : list Z) (ss : list (list Z)) : list (list Z) := match ss with [] => [] | s :: r => scell max s b :: scells max (skipn max b) r end.
Lemma scell_len max s b : (length s <= max)%nat -> (max <= length b)%nat -> length (scell max s b) = max.
Proof. intros. unfold scell. rewrite app_length. destruct (Nat.ltb_spec (length s) max); cbn [length]; [rewrite firstn_length, skipn_length; lia|lia]. Qed.
Lemma put_strs_ok max : forall ss a b i, (forall s, In s ss -> (length s <= max)%nat) -> length a = (i * max)%nat -> length b = (length ss * max)%nat ->
  put_strs max (a ++ b) i (map VStr ss) = Some (a ++ concat (scells max b ss)).
Proof.
  induction ss as [|s ss IH]; intros a b i L A B; cbn [map put_strs concat scells].
  - destruct b; [reflexivity|discriminate].
  - assert (LS : (length s <= max)%nat) by (apply L; now left). cbn [length] in B. destruct (Nat.leb_spec (length s) max); [|lia].
    rewrite (split_at b (length s)) at 1. rewrite write_mid by (try rewrite firstn_length; lia). cbn [obind].
    assert (R : forall x, (if (length s <? max)%nat then write (a ++ s ++ skipn (length s) b) (i * max + length s) [0] else Some (a ++ s ++ skipn (length s) b)) = x -> x = Some ((a ++ scell max s b) ++ skipn max b)).
    { intros x <-. unfold scell. destruct (Nat.ltb_spec (length s) max) as [LT|GE].
      - rewrite (split_at (skipn (length s) b) 1). rewrite (app_assoc a s). rewrite write_mid by (rewrite ?app_length, ?firstn_length, ?skipn_length; cbn [length]; lia).
        f_equal. rewrite <- !app_assoc. f_equal. f_equal. cbn [app]. f_equal. rewrite skipn_twice.
        rewrite (split_at (skipn (length s + 1) b) (max - S (length s))). rewrite skipn_twice. replace (length s + 1)%nat with (S (length s)) by lia. f_equal. f_equal. lia.
      - rewrite app_nil_r, <- app_assoc. assert (E : length s = max) by lia. rewrite E. reflexivity. }
    rewrite (R _ eq_refl). cbn [obind]. rewrite IH.
    + now rewrite <- app_assoc.
    + intros; apply L; now right.
    + rewrite app_length, scell_len by lia. lia.
    + rewrite skipn_length. lia.
Qed.
Lemma cut_concat w : forall bs i b, Forall (fun b => length b = w) bs -> nth_error bs i = Some b -> cut (concat bs) w i = b.
Proof.
  unfold cut. induction bs as [|x bs IH]; intros i b F N; [destruct i; discriminate|]. apply Forall_cons_iff in F as [X F]. destruct i as [|i]; cbn [nth_error] in N.
  - injection N as ->. cbn [Nat.mul skipn concat]. rewrite firstn_app, <- X, firstn_all, Nat.sub_diag, firstn_O, app_nil_r. reflexivity.
  - cbn [concat]. rewrite skipn_app, skipn_all2 by (cbn; lia). cbn [app]. rewrite X. replace (S i * w - w)%nat with (i * w)%nat by (cbn; lia). now apply IH.
Qed.
Lemma len_concat w (bs : list (list Z)) : Forall (fun b => length b = w) bs -> length (concat bs) = (length bs * w)%nat.
Proof. induction 1; cbn [concat length]; [reflexivity|]. rewrite app_length. lia. Qed.
Lemma scells_all max : forall ss b, (forall s, In s ss -> (length s <= max)%nat) -> length b = (length ss * max)%nat -> Forall (fun c => length c = max) (scells max b ss) /\ length (scells max b ss) = length ss.
Proof.
  induction ss as [|s ss IH]; intros b L B; cbn [scells]; [split; [constructor|reflexivity]|]. cbn [length] in B. destruct (IH (skipn max b)) as [I1 I2]; [intros; apply L; now right|rewrite skipn_length; lia|].
  split; [constructor; [apply scell_len; [apply L; now left|lia]|exact I1]|cbn; lia].
Qed.
Lemma scells_nth max : forall ss b i s, nth_error ss i = Some s -> exists b', nth_error (scells max b ss) i = Some (scell max s b').
Proof. induction ss as [|x ss IH]; intros b i s N; [destruct i; discriminate|]. destruct i; cbn [nth_error scells] in *; [injection N as ->; eauto|]. now apply IH. Qed.
Lemma scell_text max s b : (max <= S (length s))%nat -> same_text (scell max s b) s.
Proof.
  intros H. unfold scell. destruct (Nat.ltb_spec (length s) max); [|rewrite app_nil_r; apply same_text_refl]. replace (max - S (length s))%nat with 0%nat by lia. apply (same_text_zeros s 1).
Qed.

Lemma not_empty_max l : (exists c t, In (VBytes (c :: t)) l) -> (FindMaxSize l =? 0)%nat = false.
Proof. intros (c & t & I). apply max_ge in I. cbn in I. apply Nat.eqb_neq. lia. Qed.
Lemma bytes_made junk ss : (exists c t, In (c :: t) ss) -> exists a, ConvertBytes junk (map VBytes ss) = Some a /\ denotes a (map VBytes ss).
Proof.
  intros (c & t & I). assert (NE : (FindMaxSize (map VBytes ss) =? 0)%nat = false) by (apply not_empty_max; exists c, t; now apply in_map).
  unfold ConvertBytes. rewrite NE. cbn [obind]. set (max := FindMaxSize (map VBytes ss)) in *.
  assert (L : forall s, In s ss -> (length s <= max)%nat) by (intros s S; apply (max_ge _ (VBytes s)); now apply in_map).
  rewrite map_length. pose proof (put_bytes_ok max ss [] (map junk (seq 0 (length ss * max))) O L eq_refl ltac:(rewrite map_length, seq_length; reflexivity)) as P. cbn [app] in P. rewrite P. clear P. cbn [obind app].
  eexists. split; [reflexivity|]. cbn [denotes]. rewrite Nat2Z.id.
  assert (F : Forall (fun b => length b = max) (map (pad max) ss)) by (apply Forall_map, Forall_forall; intros; apply pad_len; auto).
  split; [rewrite (len_concat max) by exact F; now rewrite !map_length|]. intros i v N. rewrite nth_error_map in N. destruct (nth_error ss i) as [s|] eqn:E; [|discriminate]. injection N as <-.
  exists s. split; [reflexivity|]. rewrite (cut_concat max _ _ (pad max s)); [apply same_text_zeros|exact F|]. rewrite nth_error_map, E. reflexivity.
Qed.
Lemma strs_made junk ss : exists b, ConvertUnicode junk (map VStr ss) = Some b /\
  ((forall s t, In s ss -> In t ss -> (length t <= S (length s))%nat) -> denotes b (map VStr ss)).
Proof.
  unfold ConvertUnicode. set (max := FindMaxSize (map VStr ss)).
  assert (L : forall s, In s ss -> (length s <= max)%nat) by (intros s S; apply (max_ge _ (VStr s)); now apply in_map).
  rewrite map_length. set (b := map junk (seq 0 (length ss * max))). assert (B : length b = (length ss * max)%nat) by (unfold b; now rewrite map_length, seq_length).
  pose proof (put_strs_ok max ss [] b O L eq_refl B) as P. cbn [app] in P. rewrite P. clear P. cbn [obind app]. eexists. split; [reflexivity|]. intros H. cbn [denotes].
  assert (W : Z.to_nat ((if (max =? 0)%nat then 1 else 4 * Z.of_nat max) / 4) = max).
  { destruct (Nat.eqb_spec max 0) as [->|]; [reflexivity|]. rewrite Z.mul_comm, Z.div_mul by lia. apply Nat2Z.id. }
  rewrite W. destruct (scells_all max ss b L B) as [F FL]. split; [rewrite (len_concat max) by exact F; now rewrite FL, map_length|].
  intros i v N. rewrite nth_error_map in N. destruct (nth_error ss i) as [s|] eqn:E; [|discriminate]. injection N as <-. exists s. split; [reflexivity|].
  destruct (scells_nth max ss b i s E) as (b' & E'). rewrite (cut_concat max _ _ _ F E'). apply scell_text. apply nth_error_In in E.
  destruct (max_in (map VStr ss) 0) as [M|(v & I & M)]; fold (FindMaxSize (map VStr ss)) in M; fold max in M; [lia|]. apply in_map_iff in I as (t & <- & I). cbn in M. specialize (H s t E I). lia.
Qed.
(** what the items are exactly: the string, one zero, and what was in the memory *)
Lemma int32s_ok : forall l r, int32s (map VInt l) = Some r -> r = l.
Proof.
  induction l as [|z l IH]; intros r; cbn [map int32s as_longlong]; [intros H; now injection H|]. destruct ((z <? - 2 ^ 63) || (2 ^ 63 - 1 <? z)); [discriminate|]. cbn [orb].
  destruct ((z <? - 2 ^ 31) || (2 ^ 31 - 1 <? z)); [discriminate|]. destruct (int32s (map VInt l)) as [t|] eqn:E; [|discriminate]. cbn [obind]. intros H. injection H as <-. f_equal. now apply IH.
Qed.
Lemma int64_ok l : (forall z, In z l -> - 2 ^ 63 <= z < 2 ^ 63) -> map (fun v => fst (as_longlong v)) (map VInt l) = l.
Proof.
  intros H. rewrite map_map. rewrite <- (map_id l) at 2. apply map_ext_in. intros z I. specialize (H z I). cbn [as_longlong]. destruct (Z.ltb_spec z (- 2 ^ 63)); [lia|]. destruct (Z.ltb_spec (2 ^ 63 - 1) z); [lia|]. reflexivity.
Qed.
Lemma one_type_all (l : list pitem) x : (forall y z, In y (x :: l) -> In z (x :: l) -> ty y = ty z) -> forallb (fun y => ty y =? ty x) l = true.
Proof. intros H. apply forallb_forall. intros y I. apply Z.eqb_eq. apply H; [now right|now left]. Qed.
Lemma list_made long4 junk l : (forall x y, In x l -> In y l -> ty x = ty y) -> one_kind (map pv l) -> fits (map pv l) ->
  exists a, of_list long4 junk l = Some (Made a) /\ denotes a (map pv l).
Proof.
  intros T K (FI & FB & FS). destruct l as [|x r]; [exists (AFloat []); split; reflexivity|]. unfold of_list. rewrite one_type_all by exact T. cbn [negb].
  assert (HD : forall v, map pv (x :: r) = v -> hd_error v = Some (pv x)) by (intros v <-; reflexivity).
  set (vs := map pv (x :: r)) in *.
  destruct K as [(zs & E) | [(bs & E) | [(fs & E) | [(ss & E) | (ss & E)]]]]; pose proof (HD _ E) as HE; rewrite E in FI, FB, FS |- *.
  - destruct zs as [|z zs]; [discriminate|]. cbn in HE. injection HE as <-.
    assert (R : forall z', In z' (z :: zs) -> - 2 ^ 63 <= z' < 2 ^ 63) by (intros z' I; apply FI; now apply in_map).
    destruct long4.
    + unfold ConvertInt32. destruct (int32s (map VInt (z :: zs))) as [t|] eqn:E4; cbn [obind].
      * apply int32s_ok in E4 as ->. eexists. split; [reflexivity|]. reflexivity.
      * eexists. split; [reflexivity|]. unfold ConvertInt64. cbn [denotes]. now rewrite int64_ok.
    + eexists. split; [reflexivity|]. unfold ConvertInt64. cbn [denotes]. now rewrite int64_ok.
  - destruct bs as [|b bs]; [discriminate|]. cbn in HE. injection HE as <-. eexists. split; [reflexivity|]. unfold ConvertBool. cbn [denotes]. rewrite !map_map. reflexivity.
  - destruct fs as [|b bs]; [discriminate|]. cbn in HE. injection HE as <-. eexists. split; [reflexivity|]. unfold ConvertFloat64. cbn [denotes]. rewrite !map_map. reflexivity.
  - destruct ss as [|b bs]; [discriminate|]. cbn in HE. injection HE as <-. destruct (bytes_made junk (b :: bs)) as (a & -> & D).
    + destruct (FB b) as (c & t & I); [now left|]. exists c, t. apply in_map_iff in I as (s & [= ->] & I). exact I.
    + exists a. split; [reflexivity|exact D].
  - destruct ss as [|b bs]; [discriminate|]. cbn in HE. injection HE as <-. destruct (strs_made junk (b :: bs)) as (a & -> & D). exists a. split; [reflexivity|]. apply D.
    intros s t I J. apply FS; now apply in_map.
Qed.
Lemma safe_put_bytes junk ss : exists a, ConvertBytes junk (map VBytes ss) = Some a \/ ss = [].
Proof.
  destruct ss as [|s0 r]; [exists (AFloat []); now right|]. set (ss := s0 :: r).
  destruct (Nat.eqb_spec (FindMaxSize (map VBytes ss)) 0) as [Z|NZ].
  - unfold ConvertBytes. rewrite Z. cbn [Nat.eqb]. rewrite Nat.mul_1_r. unfold ss at 1. cbn [length map seq].
    set (m := map junk (seq 1 (length (map VBytes r)))). change (junk 0%nat :: m) with ([] ++ [junk 0%nat] ++ m). rewrite (write_mid [] [junk 0%nat] m [0] 0) by reflexivity. cbn [obind].
    assert (P : forall l m i, (forall s, In s l -> length s = 0%nat) -> put_bytes 0 m i (map VBytes l) = Some m).
    { clear. induction l as [|s l IH]; intros m i L; [reflexivity|]. cbn [map put_bytes]. assert (s = []) by (apply length_zero_iff_nil, L; now left). subst s. cbn [length repeat Nat.sub].
      rewrite Nat.add_0_r, Nat.mul_0_r. unfold write. cbn [length Nat.add Nat.leb firstn skipn app obind]. cbn [length Nat.add Nat.leb firstn skipn app obind]. apply IH. intros; apply L; now right. }
    rewrite P; [cbn [obind]; eexists; left; reflexivity|]. intros s I. apply (in_map VBytes) in I. apply max_ge in I. cbn [psize] in I. lia.
  - destruct (max_in (map VBytes ss) 0) as [M|(v & I & M)]; fold (FindMaxSize (map VBytes ss)) in M; [lia|]. apply in_map_iff in I as (s & <- & I). destruct s as [|c t]; [cbn [psize length] in M; lia|].
    destruct (bytes_made junk ss) as (a & E & _); [now exists c, t|]. exists a. now left.
Qed.
(** no list makes the code write outside of the array *)
Lemma list_safe long4 junk l : (l = [] \/ one_kind (map pv l)) -> of_list long4 junk l <> Some UB.
Proof.
  intros K. destruct l as [|x r]; [discriminate|]. destruct K as [K|K]; [discriminate|]. unfold of_list. destruct (negb _); [discriminate|]. cbn zeta.
  assert (HD : forall v, map pv (x :: r) = v -> hd_error v = Some (pv x)) by (intros v <-; reflexivity). set (vs := map pv (x :: r)) in *.
  destruct K as [(zs & E) | [(bs & E) | [(fs & E) | [(ss & E) | (ss & E)]]]]; pose proof (HD _ E) as HE; rewrite E; (destruct zs || destruct bs || destruct fs || destruct ss); try discriminate HE; cbn in HE; injection HE as <-; try discriminate.
  - destruct (if long4 then _ else _); discriminate.
  - destruct (safe_put_bytes junk (l :: ss)) as (a & [-> | H]); discriminate.
  - destruct (strs_made junk (l :: ss)) as (a & -> & _). discriminate.
Qed.
