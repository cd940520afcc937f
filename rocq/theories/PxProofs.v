(** The tables, the types and the orders of GroupByAllPack32. *)
From Verif Require Import Base Mem MemLemmas GroupModel GroupSpec AccumSpec GrpxModel GrpxSpec GrpxProofs Grpx2Proofs Grpx4Proofs AllModel AllSpec HeapModel HeapSpec PxModel PxSpec.
Local Open Scope Z_scope.

Ltac each_dtype d := destruct d as [|d|d]; try discriminate; repeat match goal with x : positive |- _ => destruct x as [x|x|]; try discriminate end.

Definition name_of (func : Z) : option xname :=
  match func with
  | 100 => Some XFirst | 101 => Some XNth | 102 => Some XLast | 103 => Some XMedian | 104 => Some XMode | 105 => Some XTrim | 106 => Some XQuantile
  | 200 => Some XRSum | 201 => Some XRNanSum | 202 => Some XRDiff | 203 => Some XRShift | 204 => Some XRCount | 205 => Some XRMean | 206 => Some XRNanMean
  | 207 => Some XRQuantile | _ => None
  end.

Lemma number_cases d : is_number d = true -> In d [1; 2; 3; 4; 5; 6; 7; 8; 9; 10; 11; 12; 13].
Proof. unfold is_number. intros H. apply andb_true_iff in H as [H1 H2]. apply Z.ltb_lt in H1. apply Z.leb_le in H2. cbn [In]. lia. Qed.
Lemma text_cases d : is_text d = true -> In d [18; 19; 20].
Proof. unfold is_text. intros H. apply existsb_exists in H as (x & Hx & E). apply Z.eqb_eq in E. now subst. Qed.
Definition dtypes : list Z := [0; 1; 2; 3; 4; 5; 6; 7; 8; 9; 10; 11; 12; 13; 18; 19; 20].
Lemma supported_cases func d : supported func d = true -> In func (per_group ++ rolling) /\ In d dtypes.
Proof.
  intros H. assert (D : forall d, (d =? 0) || is_number d || is_text d = true -> In d dtypes).
  { clear. intros d H. apply orb_true_iff in H as [H | H]; [apply orb_true_iff in H as [H | H]|].
    - apply Z.eqb_eq in H. subst. now left.
    - apply number_cases in H. cbn in *. tauto.
    - apply text_cases in H. cbn in *. tauto. }
  unfold supported in H. each_dtype func; (split; [cbn; tauto|]); try (apply D; rewrite H; now rewrite ?orb_true_r);
    try (apply D; exact H).
  apply existsb_exists in H as (x & Hx & E). apply Z.eqb_eq in E. subst x. cbn in *. tauto.
Qed.

Lemma table_right func d : supported func d = true -> exists nm, name_of func = Some nm /\
  GetGroupByXFunction d func = Some (mkX nm (in_type func d) (out_type func d), pack_dtype func d).
Proof.
  intros H. destruct (supported_cases func d H) as [HF HD]. cbn [per_group rolling app dtypes In] in HF, HD.
  repeat (destruct HF as [<- | HF]; [repeat (destruct HD as [<- | HD]; [first [discriminate H | eexists; split; reflexivity]|]); destruct HD|]). destruct HF.
Qed.
Lemma table_none func d : In d dtypes \/ stored d = None -> supported func d = false -> ~ (func = 103 /\ is_text d = true) -> GetGroupByXFunction d func = None.
Proof.
  intros D H N. unfold GetGroupByXFunction.
  assert (X : forall n T U o, n = None -> with_types n T U o = None) by (intros; subst; reflexivity).
  destruct D as [D | D].
  - cbn [dtypes In] in D.
    destruct (Z.eqb_spec func 105) as [-> |N1]; [repeat (destruct D as [<- | D]; [first [discriminate H | reflexivity]|]); destruct D|].
    destruct (Z.eqb_spec func 106) as [-> |N2]; [repeat (destruct D as [<- | D]; [first [discriminate H | reflexivity]|]); destruct D|].
    destruct (Z.eqb_spec func 204) as [-> |N3]; [repeat (destruct D as [<- | D]; [first [discriminate H | reflexivity]|]); destruct D|].
    destruct (Z.eqb_spec func 202) as [-> |N4]; [repeat (destruct D as [<- | D]; [first [discriminate H | reflexivity]|]); destruct D|].
    destruct (Z.eqb_spec func 203) as [-> |N5]; [repeat (destruct D as [<- | D]; [first [discriminate H | reflexivity]|]); destruct D|].
    destruct (Z.leb_spec 200 func) as [L | L].
    + destruct (Z.eqb_spec func 205) as [-> |N6]; [repeat (destruct D as [<- | D]; [first [discriminate H | reflexivity]|]); destruct D|].
      destruct (Z.eqb_spec func 206) as [-> |N7]; [repeat (destruct D as [<- | D]; [first [discriminate H | reflexivity]|]); destruct D|].
      destruct (Z.eqb_spec func 207) as [-> |N8]; [repeat (destruct D as [<- | D]; [first [discriminate H | reflexivity]|]); destruct D|].
      cbn [orb].
      assert (Y : func <> 200 -> func <> 201 -> GetXFunc2 func = None).
      { intros. clear H N X D. destruct (GetXFunc2 func) eqn:E; [|reflexivity]. unfold GetXFunc2 in E. each_dtype func; lia. }
      destruct (Z.eq_dec func 200) as [-> |M1]; [repeat (destruct D as [<- | D]; [first [discriminate H | reflexivity]|]); destruct D|].
      destruct (Z.eq_dec func 201) as [-> |M2]; [repeat (destruct D as [<- | D]; [first [discriminate H | reflexivity]|]); destruct D|].
      rewrite (Y M1 M2). repeat (destruct D as [<- | D]; [reflexivity|]). destruct D.
    + assert (Y : ~ In func [100; 101; 102; 103; 104] -> GetXFunc func = None /\ GetXFuncString func = None).
      { intros M. cbn [In] in M. clear H N X D. split.
        - destruct (GetXFunc func) eqn:E; [|reflexivity]. unfold GetXFunc in E. each_dtype func; lia.
        - destruct (GetXFuncString func) eqn:E; [|reflexivity]. unfold GetXFuncString in E. each_dtype func; lia. }
      destruct (in_dec Z.eq_dec func [100; 101; 102; 103; 104]) as [M | M].
      * cbn [In] in M. repeat (destruct M as [<- | M]; [repeat (destruct D as [<- | D]; [first [discriminate H | reflexivity | exfalso; apply N; split; reflexivity]|]); destruct D|]). destruct M.
      * destruct (Y M) as [-> ->]. repeat (destruct D as [<- | D]; [reflexivity|]). destruct D.
  - assert (ND : number d = None) by (unfold number; destruct (d =? 0); auto).
    assert (N0 : d <> 0 /\ d <> 11 /\ d <> 13) by (repeat split; intros ->; discriminate D). rewrite ND.
    assert (D0 : (d =? 0) = false) by (apply Z.eqb_neq; lia). rewrite D0.
    destruct (is_text d) eqn:ET.
    + apply text_cases in ET. cbn [In] in ET.
      destruct (Z.eqb_spec func 105) as [-> |]; [repeat (destruct ET as [<- | ET]; [reflexivity|]); destruct ET|].
      destruct (Z.eqb_spec func 106) as [-> |]; [repeat (destruct ET as [<- | ET]; [reflexivity|]); destruct ET|].
      destruct (func =? 204); [reflexivity|]. destruct (func =? 202); [reflexivity|].
      destruct (Z.eqb_spec func 203) as [-> |]; [repeat (destruct ET as [<- | ET]; [discriminate H|]); destruct ET|].
      destruct (200 <=? func).
      * destruct (_ || _); [reflexivity|]. repeat (destruct ET as [<- | ET]; [reflexivity|]). destruct ET.
      * apply X. assert (Z : func <> 100 /\ func <> 101 /\ func <> 102 /\ func <> 103).
        { repeat split; intros ->; [..|apply N; split; [reflexivity|]]; repeat (destruct ET as [<- | ET]; [first [discriminate H | reflexivity]|]); destruct ET. }
        clear H N X. destruct (GetXFuncString func) eqn:E; [|reflexivity]. unfold GetXFuncString in E. each_dtype func; lia.
    + destruct (func =? 105); [clear H N; match goal with |- ?g = None => destruct g eqn:E; [each_dtype d; lia|reflexivity] end|].
      destruct (func =? 106); [clear H N; match goal with |- ?g = None => destruct g eqn:E; [each_dtype d; lia|reflexivity] end|].
      destruct (func =? 204); [reflexivity|]. destruct (func =? 202); [reflexivity|]. destruct (func =? 203); [reflexivity|].
      destruct (200 <=? func); [|reflexivity]. destruct (_ || _); [reflexivity|]. clear H N; match goal with |- ?g = None => destruct g eqn:E; [each_dtype d; lia|reflexivity] end.
Qed.

Lemma typed_in func d : supported func d = true -> x_typed d (in_type func d) = true /\ x_typed (pack_dtype func d) (out_type func d) = true /\
  (in_type func d = XText -> is_text d = true /\ In func [100; 101; 102; 203]).
Proof.
  intros H. destruct (supported_cases func d H) as [HF HD]. cbn [per_group rolling app dtypes In] in HF, HD.
  repeat (destruct HF as [<- | HF]; [repeat (destruct HD as [<- | HD]; [first [discriminate H | split; [reflexivity|split; [reflexivity|]]; intros E; first [discriminate E | split; [reflexivity|cbn; tauto]]]|]); destruct HD|]). destruct HF.
Qed.

Section Order.
  Context {F : Type} (A : arith F) (OO : order_is_ok A).
  Notation num := (num F).
  Lemma lt_num T a b : x_lt A T a b = true -> x_num A T a = true /\ x_num A T b = true.
  Proof. destruct T as [|[c|c|c]|]; cbn; auto. intros H. destruct OO as [_ O]. apply O in H as [-> ->]. auto. Qed.
  Lemma order_num T : order_ok (x_num A T) (x_lt A T).
  Proof.
    assert (Z0 : order_ok (fun _ : num => true) (fun a b => zval a <? zval b)).
    { split; [intros; apply Z.ltb_irrefl|]. split; [intros a b c; rewrite !Z.ltb_lt; lia|]. intros a b c _ _ _. rewrite !Z.ltb_ge. lia. }
    destruct T as [|[c|c|c]|]; try exact Z0.
    destruct OO as [(O1 & O2 & O3) _]. split; [intros; apply O1|]. split; [intros a b d; cbn; apply O2|]. intros a b d; cbn; apply O3.
  Qed.
  Lemma ok_num T v : x_ok A T v = true -> x_num A T v = true.
  Proof. destruct T as [|[c|c|c]|]; cbn; auto. Qed.
  Lemma order_valid T : order_ok (x_ok A T) (x_lt A T).
  Proof. destruct (order_num T) as (O1 & O2 & O3). split; auto. split; auto. intros a b c Ha Hb Hc. apply O3; now apply ok_num. Qed.
  Lemma compare_is T a b : x_compare A T a b = compare_lt (x_lt A T) (x_num A T) a b.
  Proof. unfold compare_lt. destruct T as [|[c|c|c]|]; cbn; try (now rewrite orb_false_r). reflexivity. Qed.
  Lemma sorts_compare T n : Z.of_nat n < 2 ^ 63 -> sorts n (compare_lt (x_lt A T) (x_num A T)) (quick (x_compare A T)).
  Proof.
    intros H. assert (S : sorts n (x_compare A T) (quick (x_compare A T))).
    { apply quick_sorts; auto. pose proof (compare_order (x_lt A T) (x_num A T) (order_num T) (lt_num T)) as (O1 & O2 & O3).
      split; [intros a; rewrite compare_is; apply O1|]. split; [intros a b c; rewrite !compare_is; apply O2|]. intros a b c; rewrite !compare_is; apply O3. }
    intros l Hl. destruct (S l Hl) as [P SS]. split; auto. clear - SS. induction SS as [|x s SS IH Hx]; constructor; auto.
    eapply Forall_impl; [|exact Hx]. cbn. intros y. now rewrite compare_is.
  Qed.
  Lemma eq_self T x : x_eq A T x x = x_num A T x.
  Proof. unfold x_eq. destruct (order_num T) as (O1 & _). rewrite O1. cbn. rewrite !andb_true_r. apply andb_diag. Qed.
  Lemma eq_right T : eq_ok (x_num A T) (x_lt A T) (x_eq A T).
  Proof. intros a b Ha Hb. unfold x_eq. now rewrite Ha, Hb. Qed.
  Lemma le_right T : le_ok (x_ok A T) (x_lt A T) (x_le A T).
  Proof.
    intros a b Ha Hb. unfold x_le, x_eq. rewrite (ok_num T a Ha), (ok_num T b Hb). cbn [andb]. destruct (order_num T) as (O1 & O2 & _).
    destruct (x_lt A T a b) eqn:E; cbn [negb andb orb]; auto. destruct (x_lt A T b a) eqn:E2; auto. specialize (O1 a). now rewrite (O2 a b a E E2) in O1.
  Qed.

  Lemma median_split T vals a b : T <> XText -> sums_fit T vals -> In a vals -> In b vals -> MEDIAN_SPLIT A T a b = Some (midpoint A T a b).
  Proof.
    clear OO. intros NT S Ha Hb. specialize (S a b Ha Hb). destruct T as [|[c|c|c]|]; cbn [MEDIAN_SPLIT midpoint]; try reflexivity; [| |contradiction].
    - unfold MEDIAN_SPLIT_signed. destruct (Z.leb_spec (8 * c) 16); [reflexivity|]. rewrite (proj2 (Z.leb_le _ _)), (proj2 (Z.ltb_lt _ _)) by lia. reflexivity.
    - unfold MEDIAN_SPLIT_unsigned. cbn [option_map]. destruct S as [S1 S2].
      assert (Q : (zval a + zval b) / 2 = Z.quot (zval a + zval b) 2) by (symmetry; apply Z.quot_div_nonneg; lia).
      destruct (Z.leb_spec (8 * c) 16); [now rewrite Q|]. rewrite Z.mod_small by lia. now rewrite Q.
  Qed.
  Lemma quantile_split T vals a b : T <> XText -> sums_fit T vals -> In a vals -> In b vals -> QUANTILE_SPLIT A T a b = Some (midpoint64 A T a b).
  Proof.
    clear OO. intros NT S Ha Hb. specialize (S a b Ha Hb). destruct T as [|[c|c|c]|]; cbn [QUANTILE_SPLIT midpoint64]; try reflexivity; [| |contradiction].
    - unfold QUANTILE_SPLIT2_signed. destruct (Z.leb_spec (8 * c) 16); [reflexivity|]. rewrite (proj2 (Z.leb_le _ _)), (proj2 (Z.ltb_lt _ _)) by lia. reflexivity.
    - unfold QUANTILE_SPLIT2_unsigned. cbn [option_map]. destruct S as [S1 S2]. destruct (Z.leb_spec (8 * c) 16); [reflexivity|]. now rewrite Z.mod_small by lia.
  Qed.
End Order.
