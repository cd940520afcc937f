(** The order of the columns. *)
From Verif Require Import Base Mem MemLemmas Num SortModel SortSpec SortProofs Sort5Proofs Sort8Proofs AllModel AllSpec All4Proofs EaModel EaSpec LxModel LxSpec.
Local Open Scope Z_scope.

Lemma text_asc s : forall t, length s = length t -> STRING_LT true s t = text_before s t.
Proof.
  induction s as [|c s IH]; intros [|d t] H; try reflexivity; try discriminate. cbn [STRING_LT text_before COMPARE_LT_int]. injection H as H. rewrite <- (IH t H).
  destruct (Z.eqb_spec c d) as [-> |]; [now rewrite Z.ltb_irrefl|]. cbn [andb]. now rewrite orb_false_r.
Qed.
Lemma text_desc s : forall t, length s = length t -> STRING_LT false s t = text_before t s.
Proof.
  induction s as [|c s IH]; intros [|d t] H; try reflexivity; try discriminate. cbn [STRING_LT text_before COMPARE_LT_int]. injection H as H. rewrite <- (IH t H). rewrite (Z.eqb_sym d c).
  destruct (Z.eqb_spec c d) as [-> |]; [now rewrite Z.ltb_irrefl|]. cbn [andb]. now rewrite orb_false_r.
Qed.
Lemma float_before asc a b : COMPARE_LT_float asc a b = true <-> is_nan a = false /\ (is_nan b = true \/ (if asc then flt a b else flt b a) = true).
Proof.
  unfold COMPARE_LT_float. rewrite orb_true_iff, andb_true_iff, negb_true_iff. split; [|tauto]. intros [H | H]; [|tauto]. split; [|tauto]. destruct asc, a, b; try discriminate; reflexivity.
Qed.

Section Cols.
  Context (n : Z).
  Definition inside (x : Z) : Prop := 0 <= x < n.
  Definition has_order (c : bool * column cell) (cs : list SortModel.column) (lts : list (Z -> Z -> bool)) : Prop :=
    columns_ok (arange n) cs lts /\ forall x y, inside x -> inside y -> (lex_lt lts x y = true <-> before c x y).

  Lemma generic {T} (P : T -> Prop) (d : T) (mk : T -> value) (lt : T -> T -> bool) t asc (c : column cell) l chk :
    type_of (c_dtype c) = Some t -> chk = match t with TNormal => true | _ => false end -> ordered_type (c_dtype c) = true -> c_vals c = map mk l -> Z.of_nat (length l) = n -> sw_on P lt -> P d -> Forall P l ->
    (forall a b, P a -> P b -> compare t asc (mk a) (mk b) = Some (lt a b) /\ (lt a b = true <-> item_before asc (mk a) (mk b))) ->
    exists lts, has_order (asc, c) (sort_column asc (inf_of c)) lts.
  Proof.
    intros HT HC HO HV HL SW PD PL HX. exists [by_value d lt l].
    assert (G : forall x, inside x -> exists v, nth_error l (Z.to_nat x) = Some v /\ P v /\ nth (Z.to_nat x) l d = v).
    { intros x Hx. unfold inside in Hx. destruct (nth_error l (Z.to_nat x)) as [v|] eqn:E; [|apply nth_error_None in E; lia]. exists v. split; [reflexivity|]. split; [|now apply nth_error_nth].
      rewrite Forall_forall in PL. apply PL. eapply nth_error_In; eauto. }
    split.
    - unfold sort_column, inf_of. cbn [i_dtype i_vals]. rewrite HT. constructor; [|constructor]. split; [eapply by_value_sw; eauto|].
      intros x y Hx Hy. apply arange_In in Hx, Hy. cbn [c_lt]. destruct (G x Hx) as (v & Ev & Pv & Nv), (G y Hy) as (w & Ew & Pw & Nw). unfold zrd. rewrite (proj2 (Z.leb_le 0 x)), (proj2 (Z.leb_le 0 y)) by lia.
      rewrite HV, !nth_error_map, Ev, Ew. cbn [option_map]. rewrite (proj1 (HX v w Pv Pw)). unfold by_value. now rewrite Nv, Nw.
    - intros x y Hx Hy. destruct (G x Hx) as (v & Ev & Pv & Nv), (G y Hy) as (w & Ew & Pw & Nw). cbn [lex_lt]. cbn [orb negb andb]. unfold by_value. rewrite Nv, Nw, (proj2 (HX v w Pv Pw)).
      unfold before. cbn [fst snd]. rewrite HV, !nth_error_map, Ev, Ew. cbn [option_map]. split; [intros B; split; [exact HO|]; eauto|]. intros (_ & v' & w' & [= <-] & [= <-] & B). exact B.
  Qed.

  Lemma column_order asc c : shaped n c -> items_ok c -> exists lts, has_order (asc, c) (sort_column asc (inf_of c)) lts.
  Proof.
    intros (_ & _ & HL & _) (N20 & HI & HF & HT). destruct (ordered_type (c_dtype c)) eqn:EO.
    - unfold ordered_type in EO. apply orb_true_iff in EO as [EO | EO]; [apply orb_true_iff in EO as [EO | EO]|].
      + apply andb_true_iff in EO as (E1 & E2). apply Z.leb_le in E1, E2. destruct (Z_le_gt_dec (c_dtype c) 10) as [L | G].
        * destruct HI as (l & E); [lia|].
          refine (generic (fun _ => True) 0 I (COMPARE_LT_int asc) TNormal asc c l true _ eq_refl _ E _ _ Logic.I _ _).
          -- assert (In (c_dtype c) [0; 1; 2; 3; 4; 5; 6; 7; 8; 9; 10]) as K by (cbn [In]; lia). clear - K. cbn [In] in K. repeat (destruct K as [<- | K]; [reflexivity|]). destruct K.
          -- unfold ordered_type. rewrite (proj2 (Z.leb_le 0 _) E1), (proj2 (Z.leb_le _ 13) E2). reflexivity.
          -- rewrite E, map_length in HL. exact HL.
          -- apply sw_on_all, int_sw.
          -- now apply Forall_forall.
          -- intros a b _ _. split; [reflexivity|]. cbn [item_before]. unfold COMPARE_LT_int. destruct asc; apply Z.ltb_lt.
        * destruct HF as (l & E); [lia|].
          refine (generic (fun _ => True) NaN (fun x => R (Fl x)) (COMPARE_LT_float asc) TFloat asc c l false _ eq_refl _ E _ _ Logic.I _ _).
          -- assert (In (c_dtype c) [11; 12; 13]) as K by (cbn [In]; lia). clear - K. cbn [In] in K. repeat (destruct K as [<- | K]; [reflexivity|]). destruct K.
          -- unfold ordered_type. rewrite (proj2 (Z.leb_le 0 _) E1), (proj2 (Z.leb_le _ 13) E2). reflexivity.
          -- rewrite E, map_length in HL. exact HL.
          -- apply sw_on_all, float_sw.
          -- now apply Forall_forall.
          -- intros a b _ _. split; [reflexivity|]. cbn [item_before]. apply float_before.
      + apply Z.eqb_eq in EO. destruct HT as (k & l & E & F); [auto|].
        refine (generic (fun s => length s = k) (repeat 0 k) (fun s => R (Tx s)) (STRING_LT asc) TString asc c l false _ eq_refl _ E _ _ _ F _).
        * now rewrite EO.
        * now rewrite EO.
        * rewrite E, map_length in HL. exact HL.
        * apply string_sw.
        * apply repeat_length.
        * intros a b Ha Hb. split; [reflexivity|]. cbn [item_before]. destruct asc; [rewrite text_asc|rewrite text_desc]; try reflexivity; congruence.
      + apply Z.eqb_eq in EO. destruct HT as (k & l & E & F); [auto|].
        refine (generic (fun s => length s = k) (repeat 0 k) (fun s => R (Tx s)) (STRING_LT asc) TUnicode asc c l false _ eq_refl _ E _ _ _ F _).
        * now rewrite EO.
        * now rewrite EO.
        * rewrite E, map_length in HL. exact HL.
        * apply string_sw.
        * apply repeat_length.
        * intros a b Ha Hb. split; [reflexivity|]. cbn [item_before]. destruct asc; [rewrite text_asc|rewrite text_desc]; try reflexivity; congruence.
    - exists []. replace (sort_column asc (inf_of c)) with (@nil SortModel.column).
      + split; [constructor|]. intros x y _ _. cbn [lex_lt]. split; [discriminate|]. intros (B & _). cbn [snd] in B. congruence.
      + symmetry. unfold sort_column, inf_of. cbn [i_dtype]. replace (type_of (c_dtype c)) with (@None sort_type); [reflexivity|]. symmetry. clear - EO N20. unfold ordered_type in EO.
        destruct (c_dtype c) as [|p|p]; try reflexivity; [discriminate EO|]. do 5 (destruct p as [p|p|]; try reflexivity; try discriminate EO; try (exfalso; apply N20; reflexivity)).
  Qed.

  Lemma lex_app a b x y : lex_lt (a ++ b) x y = lex_lt b x y || (negb (lex_lt b y x) && lex_lt a x y).
  Proof.
    revert x y. induction a as [|c a IH]; intros x y; cbn [app lex_lt]; [now rewrite andb_false_r, orb_false_r|]. rewrite !IH.
    destruct (lex_lt b x y), (lex_lt b y x), (lex_lt a x y), (lex_lt a y x), (c x y); reflexivity.
  Qed.

  Lemma columns_order cols : Forall (fun c => shaped n (snd c) /\ items_ok (snd c)) cols ->
    exists lts, columns_ok (arange n) (flat_map (fun x => sort_column (fst x) (inf_of (snd x))) cols) lts /\
      forall x y, inside x -> inside y -> (lex_lt lts x y = true <-> row_before cols x y) /\ ((lex_lt lts x y = false /\ lex_lt lts y x = false) <-> Forall (fun c => alike c x y) cols).
  Proof.
    intros H. induction H as [|[asc c] cols (HS & HI) _ (lts & C1 & C2)].
    - exists []. split; [constructor|]. intros x y _ _. cbn [lex_lt]. split; [|split; auto]. split; [discriminate|]. intros (pre & c & post & E & _). destruct pre; discriminate.
    - cbn [snd] in HS, HI. destruct (column_order asc c HS HI) as (l1 & O1 & O2). exists (l1 ++ lts). split; [cbn [flat_map fst snd]; now apply Forall2_app|].
      intros x y Hx Hy. rewrite !lex_app. pose proof (C2 x y Hx Hy) as (A1 & A2). pose proof (C2 y x Hy Hx) as (A3 & A4). pose proof (O2 x y Hx Hy) as B1. pose proof (O2 y x Hy Hx) as B2.
      assert (RB : forall u v, row_before ((asc, c) :: cols) u v <-> row_before cols u v \/ (Forall (fun c => alike c u v) cols /\ before (asc, c) u v)).
      { intros u v. split.
        - intros (pre & d & post & E & Bd & F). destruct pre as [|p pre]; cbn [app] in E; injection E as E1 E2.
          + right. rewrite E1, E2. auto.
          + left. exists pre, d, post. auto.
        - intros [(pre & d & post & E & Bd & F) | (F & B)]; [exists ((asc, c) :: pre), d, post; rewrite E; auto|]. exists [], (asc, c), cols. auto. }
      rewrite RB. unfold alike in *. split.
      + destruct (lex_lt lts x y) eqn:E1; cbn [orb]; [split; [intros _; left; now apply A1|reflexivity]|].
        destruct (lex_lt lts y x) eqn:E2; cbn [negb andb].
        * split; [discriminate|]. intros [K | (K & _)]; [apply A1 in K; discriminate|]. apply A2 in K. destruct K; discriminate.
        * rewrite B1. split; [intros K; right; split; [now apply A2|exact K]|]. intros [K | (_ & K)]; [apply A1 in K; discriminate|exact K].
      + rewrite Forall_cons_iff. unfold alike. split.
        * intros (K1 & K2). apply orb_false_iff in K1 as (K1 & K1'), K2 as (K2 & K2'). rewrite K2 in K1'. rewrite K1 in K2'. cbn [negb andb] in K1', K2'.
          split; [|now apply A2]. split; [rewrite <- B1|rewrite <- B2]; congruence.
        * intros ((K1 & K2) & K3). apply A2 in K3 as (E1 & E2). rewrite E1, E2. cbn [orb negb andb]. split; apply not_true_iff_false; [now rewrite B1|now rewrite B2].
  Qed.
End Cols.
