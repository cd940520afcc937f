(** Types and values of the prepared operands. *)
From Coq Require Import Reals SpecFloat.
From Flocq Require Import Core BinarySingleNaN.
From Verif Require Import Base Mem MemLemmas Par ConvModel ConvSpec ConvProofs TwoModel TwoSpec.
Local Open Scope Z_scope.

Lemma same_int d z y : is_float d = false -> typed d y -> denotes y (IZR z) -> y = VI z.
Proof.
  intros F T D. destruct y as [w|f]; cbn in *; [|destruct T; congruence]. apply eq_IZR in D. now subst.
Qed.
Lemma typed_int d x : is_float d = false -> typed d x -> exists z, x = VI z.
Proof. intros F T. destruct x as [z|f]; [now exists z|]. destruct T; congruence. Qed.

Lemma conv_int t u x : is_float t = false -> is_float u = false -> holds_integers t u = true -> plain t x ->
  convert_safe t u x = Some x /\ typed u x.
Proof.
  intros Ft Fu H [T N]. destruct (typed_int t x Ft T) as [z ->].
  assert (U : typed u (VI z)). { unfold holds_integers in H. rewrite Ft, Fu in H. cbn in *. split; [assumption|]. lia. }
  destruct (convert_safe_keeps t u (VI z) (IZR z) T N eq_refl) as (y & E & Ty & D).
  - exists (VI z). split; [assumption|reflexivity].
  - rewrite E. pose proof (same_int u z y Fu Ty D). now subst.
Qed.
Lemma conv_ints t u a b xs : of_num t = Some a -> of_num u = Some b -> is_float a = false -> is_float b = false -> holds_integers a b = true ->
  Forall (plain a) xs -> conv_arr t u xs = Some xs /\ Forall (typed b) xs.
Proof.
  intros Ea Eb Fa Fb H P. split.
  - unfold conv_arr. rewrite Ea, Eb. rewrite (all_some_map _ (fun x => x)); [now rewrite map_id|].
    intros x I. apply conv_int; auto. now apply (proj1 (Forall_forall _ _) P).
  - apply Forall_forall. intros x I. apply (conv_int a b); auto. now apply (proj1 (Forall_forall _ _) P).
Qed.

(** ** Scalars *)
Lemma scalar_int_ok t d z v v2 : 1 <= t <= 10 -> of_num t = Some d -> typed d (VI z) ->
  (signed t -> v = z) -> (unsigned t -> v2 = z) -> scalar_int v v2 t = Some (VI z).
Proof.
  intros B E [F T] S U. unfold scalar_int. rewrite E.
  assert (C : In t [1;2;3;4;5;6;7;8;9;10]) by (cbn; lia). unfold signed, unsigned in *. cbn [In] in *.
  repeat (destruct C as [<-|C]; [injection E as <-; cbn [is_float unsigned_num Z.eqb Pos.eqb orb bits]; cbn in T; 
    first [rewrite S by lia; rewrite wrap_id by lia; reflexivity | rewrite U by lia; rewrite Z.mod_small by lia; reflexivity]|]). destruct C.
Qed.

Lemma log2_table z k : 0 < z -> 0 <= k -> Z.log2 z + 1 <= k <-> z < 2 ^ k.
Proof. intros Hz Hk. rewrite Z.log2_lt_pow2 by assumption. lia. Qed.
Definition bits_of (v : Z) : Z := if v =? 0 then 0 else Z.log2 v + 1.
Lemma bits_of_le v k : 0 <= v -> 0 <= k -> bits_of v <= k <-> v < 2 ^ k.
Proof.
  intros Hv Hk. unfold bits_of. destruct (Z.eqb_spec v 0).
  - subst. split; intros; [apply Z.pow_pos_nonneg; lia|assumption].
  - apply log2_table; lia.
Qed.
Lemma signed_table v : 0 <= v < 2 ^ 63 -> exists d, of_num (g_signed_table (bits_of v)) = Some d /\ is_float d = false /\ signed (g_signed_table (bits_of v))
  /\ g_signed_table (bits_of v) <= 7 /\ v <= hi d /\ lo d = - hi d - 1
  /\ (v < 2 ^ 7 -> g_signed_table (bits_of v) <= 1) /\ (v < 2 ^ 15 -> g_signed_table (bits_of v) <= 3) /\ (v < 2 ^ 31 -> g_signed_table (bits_of v) <= 5).
Proof.
  intros Hv. unfold g_signed_table.
  pose proof (bits_of_le v 7 ltac:(lia) ltac:(lia)). pose proof (bits_of_le v 15 ltac:(lia) ltac:(lia)). pose proof (bits_of_le v 31 ltac:(lia) ltac:(lia)).
  destruct (Z.leb_spec (bits_of v) 7); [exists I8|destruct (Z.leb_spec (bits_of v) 15); [exists I16|destruct (Z.leb_spec (bits_of v) 31); [exists I32|exists I64]]];
    (split; [reflexivity|split; [reflexivity|split; [unfold signed; cbn; tauto|]]]); cbn; repeat split; try lia; intros; lia.
Qed.
Lemma unsigned_table v : 0 <= v < 2 ^ 64 -> exists d, of_num (g_bothunsigned_table (bits_of v)) = Some d /\ is_float d = false /\ unsigned (g_bothunsigned_table (bits_of v))
  /\ g_bothunsigned_table (bits_of v) <= 8 /\ v <= hi d /\ lo d = 0
  /\ (v < 2 ^ 8 -> g_bothunsigned_table (bits_of v) <= 2) /\ (v < 2 ^ 16 -> g_bothunsigned_table (bits_of v) <= 4) /\ (v < 2 ^ 32 -> g_bothunsigned_table (bits_of v) <= 6).
Proof.
  intros Hv. unfold g_bothunsigned_table.
  pose proof (bits_of_le v 8 ltac:(lia) ltac:(lia)). pose proof (bits_of_le v 16 ltac:(lia) ltac:(lia)). pose proof (bits_of_le v 32 ltac:(lia) ltac:(lia)).
  destruct (Z.leb_spec (bits_of v) 8); [exists U8|destruct (Z.leb_spec (bits_of v) 16); [exists U16|destruct (Z.leb_spec (bits_of v) 32); [exists U32|exists U64]]];
    (split; [reflexivity|split; [reflexivity|split; [unfold unsigned; cbn; tauto|]]]); cbn; repeat split; try lia; intros; lia.
Qed.
Lemma mixed_table v : 0 <= v < 2 ^ 63 -> ~ (2 ^ 7 <= v < 2 ^ 8) -> ~ (2 ^ 15 <= v < 2 ^ 16) -> ~ (2 ^ 31 <= v < 2 ^ 32) ->
  exists d, of_num (g_mixedsign_table (bits_of v)) = Some d /\ is_float d = false /\ signed (g_mixedsign_table (bits_of v)) /\ g_mixedsign_table (bits_of v) <= 7 /\ v <= hi d /\ lo d = - hi d - 1.
Proof.
  intros Hv N1 N2 N3. unfold g_mixedsign_table.
  pose proof (bits_of_le v 7 ltac:(lia) ltac:(lia)). pose proof (bits_of_le v 15 ltac:(lia) ltac:(lia)). pose proof (bits_of_le v 31 ltac:(lia) ltac:(lia)).
  pose proof (bits_of_le v 8 ltac:(lia) ltac:(lia)). pose proof (bits_of_le v 16 ltac:(lia) ltac:(lia)). pose proof (bits_of_le v 32 ltac:(lia) ltac:(lia)).
  pose proof (bits_of_le v 63 ltac:(lia) ltac:(lia)).
  destruct (Z.leb_spec (bits_of v) 7); [exists I8; (split; [reflexivity|split; [reflexivity|split; [unfold signed; cbn; tauto|]]]); cbn; lia|].
  destruct (Z.eqb_spec (bits_of v) 8); [exfalso; lia|].
  destruct (Z.leb_spec (bits_of v) 15); [exists I16; (split; [reflexivity|split; [reflexivity|split; [unfold signed; cbn; tauto|]]]); cbn; lia|].
  destruct (Z.eqb_spec (bits_of v) 16); [exfalso; lia|].
  destruct (Z.leb_spec (bits_of v) 31); [exists I32; (split; [reflexivity|split; [reflexivity|split; [unfold signed; cbn; tauto|]]]); cbn; lia|].
  destruct (Z.eqb_spec (bits_of v) 32); [exfalso; lia|].
  destruct (Z.leb_spec (bits_of v) 63); [exists I64; (split; [reflexivity|split; [reflexivity|split; [unfold signed; cbn; tauto|]]]); cbn; lia|]. exfalso. lia.
Qed.

(** the common integer type holds both types *)
Definition up_check2 (cmp : bool) (t c : Z) : bool :=
  match GetUpcastType cmp t c with
  | Some (u, u') => (u =? u') && (1 <=? u) && (u <=? 10) &&
      match of_num t, of_num c, of_num u with
      | Some a, Some b, Some d => negb (is_float d) && holds_integers a d && holds_integers b d && ((t =? u) || (t <? c) || (Z.even t && Z.odd c))
      | _, _, _ => false
      end
  | None => false
  end.
Lemma up_check2_true : forallb (fun cmp => forallb (fun t => forallb (fun c => up_check2 cmp t c)
    (if (t =? 0) then [1;3;5;7] else if Z.odd t then [1;3;5;7] else [2;4;6;8]
     )) [0;1;2;3;4;5;6;7;8;9;10] && forallb (fun t => forallb (fun c => up_check2 cmp t c) [1;3;5;7]) [2;4;6]) [true; false] = true.
Proof. vm_compute. reflexivity. Qed.

Record scalar_type (cmp : bool) (t z : Z) (a d : dtype) (u : Z) : Prop := {
  st_up : PossiblyUpcast cmp (PyInt z) t = u; st_a : of_num t = Some a; st_d : of_num u = Some d; st_range : 1 <= u <= 10;
  st_fa : is_float a = false; st_fd : is_float d = false; st_holds : holds_integers a d = true; st_z : typed d (VI z);
  st_same : typed a (VI z) -> t = 0 \/ u = t; st_scalar : ConvertScalarObject (PyInt z) u = Some (VI z) }.

Lemma up_check_use cmp t c b z : In t [0;1;2;3;4;5;6;7;8;9;10] -> up_check2 cmp t c = true -> of_num c = Some b -> lo b <= z <= hi b -> is_float b = false ->
  (forall a, of_num t = Some a -> typed a (VI z) -> t <> 0 -> c <= t /\ Z.even t && Z.odd c = false) ->
  - 2 ^ 63 <= z < 2 ^ 64 -> (0 <= z \/ Z.odd (to_first (GetUpcastType cmp t c) t) = true) -> (z < 2 ^ 63 \/ unsigned (to_first (GetUpcastType cmp t c) t)) ->
  exists a d u, to_first (GetUpcastType cmp t c) t = u /\ of_num t = Some a /\ of_num u = Some d /\ 1 <= u <= 10 /\ is_float a = false /\ is_float d = false
    /\ holds_integers a d = true /\ typed d (VI z) /\ (typed a (VI z) -> t = 0 \/ u = t) /\ ConvertScalarObject (PyInt z) u = Some (VI z).
Proof.
  intros T C Eb Hz Fb Le B So Su. unfold up_check2 in C. destruct (GetUpcastType cmp t c) as [[u u']|] eqn:E; [|discriminate]. cbn [to_first] in *.
  apply andb_prop in C as [C1 C2]. apply andb_prop in C1 as [C1 C3]. apply andb_prop in C1 as [_ C1].
  destruct (of_num t) as [a|] eqn:Ea; [|discriminate]. rewrite Eb in C2. destruct (of_num u) as [d|] eqn:Ed; [|discriminate].
  apply andb_prop in C2 as [C2 C4]. apply andb_prop in C2 as [C2 C5]. apply andb_prop in C2 as [C2 C6]. apply negb_true_iff in C2.
  assert (Fa : is_float a = false). { cbn in T. repeat (destruct T as [<-|T]; [now injection Ea as <-|]). destruct T. }
  assert (Td : typed d (VI z)). { unfold holds_integers in C5. rewrite Fb, C2 in C5. cbn. split; [assumption|lia]. }
  exists a, d, u. split; [reflexivity|]. split; [reflexivity|]. split; [assumption|]. split; [lia|]. split; [assumption|]. split; [assumption|]. split; [assumption|]. split; [assumption|]. split.
  - intros Ta. destruct (Z.eqb_spec t 0) as [->|N]; [now left|right]. destruct (Le a eq_refl Ta N) as [L1 L2]. rewrite L2, orb_false_r in C4. apply orb_prop in C4 as [C4|C4]; lia.
  - cbn [ConvertScalarObject]. unfold AsLongLong. destruct (Z.leb_spec (2 ^ 63) z).
    + apply (scalar_int_ok u d); auto; [lia|intros Sg; destruct Su as [Su|Su]; [lia|]|intros _; cbn; rewrite Z.mod_small; lia].
      unfold signed, unsigned in *. cbn in *. lia.
    + destruct (Z.ltb_spec z (- 2 ^ 63)); [lia|]. apply (scalar_int_ok u d); auto; [lia|]. intros Un. replace (0 =? 1) with false by reflexivity. rewrite orb_false_r.
      destruct So as [So|So].
      * destruct (Z.leb_spec 0 z); [|lia]. now rewrite Z.mod_small by lia.
      * exfalso. unfold unsigned in Un. cbn in Un. repeat (destruct Un as [<-|Un]; [discriminate|]). destruct Un.
Qed.
Lemma in11 t : 0 <= t <= 10 -> In t [0;1;2;3;4;5;6;7;8;9;10]. Proof. cbn. lia. Qed.
Lemma checks cmp t c : (In t [0;1;3;5;7;9;2;4;6] /\ In c [1;3;5;7]) \/ (In t [2;4;6;8;10] /\ In c [2;4;6;8]) -> up_check2 cmp t c = true.
Proof.
  intros H. pose proof up_check2_true as U. rewrite forallb_forall in U. specialize (U cmp ltac:(destruct cmp; cbn; tauto)). apply andb_prop in U as [U V].
  rewrite forallb_forall in U, V.
  assert (U' : forall t c, In t [0;1;2;3;4;5;6;7;8;9;10] -> In c (if (t =? 0) then [1;3;5;7] else if Z.odd t then [1;3;5;7] else [2;4;6;8]) -> up_check2 cmp t c = true)
    by (intros t' c' I J; specialize (U t' I); rewrite forallb_forall in U; now apply U).
  assert (V' : forall t c, In t [2;4;6] -> In c [1;3;5;7] -> up_check2 cmp t c = true)
    by (intros t' c' I J; specialize (V t' I); rewrite forallb_forall in V; now apply V).
  clear U V. destruct H as [[H C]|[H C]]; cbn [In] in H.
  - repeat (destruct H as [<-|H]; [first [apply V'; [cbn; tauto|assumption]|apply U'; [cbn; tauto|exact C]]|]). destruct H.
  - repeat (destruct H as [<-|H]; [apply U'; [cbn; tauto|exact C]|]). destruct H.
Qed.

Lemma small_type a t c z : of_num t = Some a -> typed a (VI z) -> t <> 0 -> (signed t \/ unsigned t) -> signed t /\ signed c \/ unsigned t /\ unsigned c -> c <= 8 ->
  (signed t -> (-2 ^ 7 <= z < 2 ^ 7 -> c <= 1) /\ (- 2 ^ 15 <= z < 2 ^ 15 -> c <= 3) /\ (- 2 ^ 31 <= z < 2 ^ 31 -> c <= 5) /\ c <= 7) ->
  (unsigned t -> (z < 2 ^ 8 -> c <= 2) /\ (z < 2 ^ 16 -> c <= 4) /\ (z < 2 ^ 32 -> c <= 6)) -> c <= t /\ Z.even t && Z.odd c = false.
Proof.
  intros Ea [_ Ta] N ST SC C8 HS HU. unfold signed, unsigned in *. cbn [In] in *. split.
  - destruct ST as [ST|ST].
    + specialize (HS ST). clear HU. repeat (destruct ST as [<-|ST]; [injection Ea as <-; cbn in Ta; lia|]). destruct ST.
    + specialize (HU ST). clear HS. repeat (destruct ST as [<-|ST]; [injection Ea as <-; cbn in Ta; lia|]). destruct ST.
  - destruct SC as [[S C]|[S C]].
    + repeat (destruct S as [<-|S]; [reflexivity|]). destruct S.
    + repeat (destruct C as [<-|C]; [now rewrite andb_false_r|]). destruct C.
Qed.

Lemma up_signed cmp t c : signed c -> c <= 7 -> In t [0;1;3;5;7;9;2;4;6] -> Z.odd (to_first (GetUpcastType cmp t c) t) = true.
Proof.
  intros Sc C T. unfold signed in Sc. cbn [In] in *.
  repeat (destruct T as [<-|T]; [repeat (destruct Sc as [<-|Sc]; [first [lia | destruct cmp; reflexivity]|]); destruct Sc|]). destruct T.
Qed.

Lemma possibly cmp t z : 0 <= t <= 10 -> scalar_fits t z -> exists a d u, scalar_type cmp t z a d u.
Proof.
  intros B F. pose proof (in11 t B) as T11.
  assert (Wrap : (exists a d u, PossiblyUpcast cmp (PyInt z) t = u /\ of_num t = Some a /\ of_num u = Some d /\ 1 <= u <= 10 /\ is_float a = false /\ is_float d = false
    /\ holds_integers a d = true /\ typed d (VI z) /\ (typed a (VI z) -> t = 0 \/ u = t) /\ ConvertScalarObject (PyInt z) u = Some (VI z)) -> exists a d u, scalar_type cmp t z a d u).
  { intros (a & d & u & H). exists a, d, u. destruct H as (H1 & H2 & H3 & H4 & H5 & H6 & H7 & H8 & H9 & H10). constructor; assumption. }
  apply Wrap. clear Wrap. unfold PossiblyUpcast. replace (t <=? 10) with true by (symmetry; apply Z.leb_le; lia).
  destruct (Z_lt_le_dec z (2 ^ 63)) as [Hz|Hz].
  - assert (Lz : - 2 ^ 63 <= z) by (destruct F as [[_ F]|[[_ F]|[[L F]|(_ & _ & F & _)]]]; lia).
    assert (E : AsLongLong z = (z, 0)) by (unfold AsLongLong; destruct (Z.leb_spec (2 ^ 63) z); [lia|destruct (Z.ltb_spec z (- 2 ^ 63)); [lia|reflexivity]]).
    rewrite E. cbn [Z.eqb]. unfold scalar_dtype. cbv zeta.
    set (v' := if z <? 0 then - (z + 1) else z). fold (bits_of v').
    assert (V : 0 <= v' < 2 ^ 63) by (unfold v'; destruct (Z.ltb_spec z 0); lia).
    destruct ((0 <? t) && Z.even t) eqn:Un.
    + assert (UT : unsigned t). { unfold unsigned. cbn in T11 |- *. repeat (destruct T11 as [<-|T11]; [first [discriminate | tauto]|]). destruct T11. }
      destruct (Z.ltb_spec z 0).
      * assert (X : t < 8 /\ ~ (- 2 ^ 8 <= z < - 2 ^ 7) /\ ~ (- 2 ^ 16 <= z < - 2 ^ 15) /\ ~ (- 2 ^ 32 <= z < - 2 ^ 31)).
        { destruct F as [[[S|S] _]|[[_ S]|[[_ S]|(_ & S)]]]; try lia. exfalso. unfold signed, unsigned in *. cbn in *. lia. }
        destruct X as (T8 & X1 & X2 & X3).
        destruct (mixed_table v' V) as (b & Eb & Fb & Sb & Lb & Vb & Hb); [unfold v'; lia..|].
        assert (T6 : In t [2;4;6]) by (unfold unsigned in UT; cbn in UT |- *; lia).
        apply (up_check_use cmp t (g_mixedsign_table (bits_of v')) b z T11); auto; try (unfold v' in *; lia).
        -- apply checks. left. split; [cbn in T6 |- *; lia|]. unfold signed in Sb. cbn in Sb |- *. lia.
        -- intros a Ea [_ Ta] _. exfalso. cbn in T6. repeat (destruct T6 as [<-|T6]; [injection Ea as <-; cbn in Ta; lia|]). destruct T6.
        -- right. apply up_signed; auto. cbn in T6 |- *. lia.
      * destruct (unsigned_table v' ltac:(lia)) as (b & Eb & Fb & Sb & Lb & Vb & Hb & M).
        apply (up_check_use cmp t (g_bothunsigned_table (bits_of v')) b z T11); auto; try (unfold v' in *; lia).
        -- apply checks. right. split; [exact UT|]. unfold unsigned in Sb. cbn in Sb |- *. lia.
        -- intros a Ea Ta N. apply (small_type a t _ z); auto. intros St; exfalso; unfold signed, unsigned in *; cbn in *; lia.
    + assert (ST : signed t \/ t = 0). { unfold signed. cbn in T11 |- *. repeat (destruct T11 as [<-|T11]; [first [discriminate | tauto]|]). destruct T11. }
      assert (W : (if z <? 0 then g_signed_table (bits_of v') else g_signed_table (bits_of v')) = g_signed_table (bits_of v')) by now destruct (z <? 0).
      rewrite W. clear W.
      destruct (signed_table v' V) as (b & Eb & Fb & Sb & Lb & Vb & Hb & M).
      assert (TT : In t [0;1;3;5;7;9;2;4;6]) by (unfold signed in ST; cbn in ST |- *; lia).
      apply (up_check_use cmp t (g_signed_table (bits_of v')) b z T11); auto; try (unfold v' in *; destruct (Z.ltb_spec z 0); lia).
      -- apply checks. left. split; [exact TT|]. unfold signed in Sb. cbn in Sb |- *. lia.
      -- intros a Ea Ta N. destruct ST as [ST|ST]; [|lia]. apply (small_type a t _ z); auto; [lia| |intros St; exfalso; unfold signed, unsigned in *; cbn in *; lia].
         intros _. unfold v' in *. destruct (Z.ltb_spec z 0); lia.
      -- right. now apply up_signed.
  - assert (X : long_unsigned t /\ z < 2 ^ 64) by (destruct F as [[_ F]|[[_ F]|[[L F]|(_ & _ & F & _)]]]; [lia|lia|split; [assumption|lia]|lia]). destruct X as [LU Z64].
    assert (E : AsLongLong z = (-1, 1)) by (unfold AsLongLong; destruct (Z.leb_spec (2 ^ 63) z); [reflexivity|lia]).
    rewrite E. cbn [Z.eqb]. unfold long_unsigned in LU. cbn in LU.
    destruct LU as [<-|[<-|[]]]; cbn [Z.eqb Pos.eqb orb]; exists U64, U64; eexists; (split; [reflexivity|]);
      (split; [reflexivity|]); (split; [reflexivity|]); (split; [lia|]); (split; [reflexivity|]); (split; [reflexivity|]); (split; [reflexivity|]); (split; [cbn; split; [reflexivity|lia]|]);
      (split; [tauto|]); cbn [ConvertScalarObject]; rewrite E; cbn [Z.eqb Pos.eqb orb]; rewrite orb_true_r; (apply (scalar_int_ok _ U64); [lia|reflexivity|cbn; split; [reflexivity|lia]| |intros _; now rewrite Z.mod_small by lia]);
      intros S; exfalso; unfold signed in S; cbn in S; lia.
Qed.

Lemma conv_if_ints t u a b xs : of_num t = Some a -> of_num u = Some b -> is_float a = false -> is_float b = false -> holds_integers a b = true ->
  Forall (typed a) xs -> t = u \/ Forall (plain a) xs -> conv_if t u xs = Some xs /\ Forall (typed b) xs.
Proof.
  intros Ea Eb Fa Fb H T P. unfold conv_if. destruct (Z.eqb_spec t u) as [->|N].
  - split; [reflexivity|]. congruence.
  - destruct P as [P|P]; [contradiction|]. now apply (conv_ints t u a b).
Qed.
Lemma scalar_parts cmp t d xs z : 0 <= t <= 10 -> of_num t = Some d -> scalar_fits t z -> Forall (typed d) xs -> typed d (VI z) \/ Forall (plain d) xs ->
  exists u du, PossiblyUpcast cmp (PyInt z) t = u /\ of_num u = Some du /\ 0 <= u <= 10 /\ conv_if t u xs = Some xs /\ Forall (typed du) xs
    /\ typed du (VI z) /\ ConvertScalarObject (PyInt z) u = Some (VI z).
Proof.
  intros B Ed F T P. destruct (possibly cmp t z B F) as (a & du & u & []). rewrite Ed in st_a0. injection st_a0 as <-.
  exists u, du. split; [assumption|]. split; [assumption|]. split; [lia|].
  destruct (conv_if_ints t u d du xs) as [C1 C2]; auto.
  - destruct P as [P|P]; [|now right]. destruct (st_same0 P) as [->|E]; [|left; congruence]. right.
    injection Ed as <-. apply Forall_forall. intros x I. split; [now apply (proj1 (Forall_forall _ _) T)|discriminate].
Qed.
Lemma int_scalar_second cmp t d xs z : 0 <= t <= 10 -> of_num t = Some d -> scalar_fits t z -> Forall (typed d) xs -> typed d (VI z) \/ Forall (plain d) xs ->
  exists p, CheckInputs cmp false (Arr t xs) (Sca (PyInt z)) = Some p /\ same_integers p Second xs [VI z].
Proof.
  intros B Ed F T P. destruct (scalar_parts cmp t d xs z B Ed F T P) as (u & du & E1 & E2 & E3 & E4 & E5 & E6 & E7).
  cbn [CheckInputs]. rewrite E1, E4, E7. eexists. split; [reflexivity|]. repeat (split; [first [reflexivity | assumption | cbn; lia]|]).
  exists du. split; [assumption|]. split; [assumption|]. now constructor.
Qed.
Lemma int_scalar_first cmp t d ys z : 0 <= t <= 10 -> of_num t = Some d -> scalar_fits t z -> Forall (typed d) ys -> typed d (VI z) \/ Forall (plain d) ys ->
  exists p, CheckInputs cmp false (Sca (PyInt z)) (Arr t ys) = Some p /\ same_integers p First [VI z] ys.
Proof.
  intros B Ed F T P. destruct (scalar_parts cmp t d ys z B Ed F T P) as (u & du & E1 & E2 & E3 & E4 & E5 & E6 & E7).
  cbn [CheckInputs]. rewrite E1, E4, E7. eexists. split; [reflexivity|]. repeat (split; [first [reflexivity | assumption | cbn; lia]|]).
  exists du. split; [assumption|]. split; [now constructor|assumption].
Qed.

(** ** Arrays of integers *)
Definition clash (t1 t2 : Z) : bool := ((t1 =? 8) || (t1 =? 10)) && Z.odd t2 || ((t2 =? 8) || (t2 =? 10)) && Z.odd t1.
Definition pair_check (cmp : bool) (a b t1 t2 : Z) : bool :=
  match GetUpcastType cmp a b with
  | Some (c, c') => (c =? c') && (0 <=? c) && (c <=? 10) &&
      match of_num t1, of_num t2, of_num c with
      | Some d1, Some d2, Some d => negb (is_float d) && holds_integers d1 d && holds_integers d2 d
          && (if a =? c then dtype_beq d1 d else true) && (if b =? c then dtype_beq d2 d else true)
      | _, _, _ => false
      end
  | None => false
  end.
Definition ints11 := [0;1;2;3;4;5;6;7;8;9;10].
Lemma pair_check_true : forallb (fun cmp => forallb (fun t1 => forallb (fun t2 => clash t1 t2 ||
    (pair_check cmp (fix_long t1) (fix_long t2) t1 t2 && pair_check cmp (fix_longlong t1) t2 t1 t2 && pair_check cmp t1 (fix_longlong t2) t1 t2)) ints11) ints11) [true; false] = true.
Proof. vm_compute. reflexivity. Qed.
Lemma beq_eq a b : dtype_beq a b = true -> a = b. Proof. destruct a, b; cbn; congruence. Qed.

Lemma pair_use cmp a b t1 t2 d1 d2 xs ys : pair_check cmp a b t1 t2 = true -> of_num t1 = Some d1 -> of_num t2 = Some d2 -> is_float d1 = false -> is_float d2 = false ->
  Forall (typed d1) xs -> Forall (typed d2) ys -> d1 = d2 \/ Forall (plain d1) xs /\ Forall (plain d2) ys ->
  exists c d, GetUpcastType cmp a b = Some (c, c) /\ of_num c = Some d /\ 0 <= c <= 10 /\ is_float d = false /\ holds_integers d1 d = true /\ holds_integers d2 d = true
    /\ ((if a =? c then Some xs else conv_arr t1 c xs) = Some xs \/ d1 = d2 /\ a <> c) /\ ((if b =? c then Some ys else conv_arr t2 c ys) = Some ys \/ d1 = d2 /\ b <> c).
Proof.
  intros C E1 E2 F1 F2 T1 T2 P. unfold pair_check in C. destruct (GetUpcastType cmp a b) as [[c c']|]; [|discriminate].
  rewrite E1, E2 in C. apply andb_prop in C as [C C2]. apply andb_prop in C as [C C3]. apply andb_prop in C as [C C4]. apply Z.eqb_eq in C. subst c'.
  destruct (of_num c) as [d|] eqn:Ed; [|discriminate]. apply andb_prop in C2 as [C2 C5]. apply andb_prop in C2 as [C2 C6]. apply andb_prop in C2 as [C2 C7]. apply andb_prop in C2 as [C2 C8].
  apply negb_true_iff in C2. exists c, d. repeat (split; [first [reflexivity | assumption | lia]|]). split.
  - destruct (Z.eqb_spec a c); [now left|]. destruct P as [P|[P _]]; [now right|]. left. now apply (conv_ints t1 c d1 d).
  - destruct (Z.eqb_spec b c); [now left|]. destruct P as [P|[_ P]]; [now right|]. left. now apply (conv_ints t2 c d2 d).
Qed.
Lemma pair_checks cmp t1 t2 : 0 <= t1 <= 10 -> 0 <= t2 <= 10 -> clash t1 t2 = false ->
  pair_check cmp (fix_long t1) (fix_long t2) t1 t2 = true /\ pair_check cmp (fix_longlong t1) t2 t1 t2 = true /\ pair_check cmp t1 (fix_longlong t2) t1 t2 = true.
Proof.
  intros B1 B2 N. pose proof pair_check_true as U. rewrite forallb_forall in U. specialize (U cmp ltac:(destruct cmp; cbn; tauto)).
  rewrite forallb_forall in U. specialize (U t1 (in11 t1 B1)). rewrite forallb_forall in U. specialize (U t2 (in11 t2 B2)). rewrite N in U. cbn [orb] in U.
  apply andb_prop in U as [U C]. apply andb_prop in U as [A B]. auto.
Qed.
Lemma int_num t d : 0 <= t <= 10 -> of_num t = Some d -> is_float d = false.
Proof. intros B E. pose proof (in11 t B) as I. cbn in I. repeat (destruct I as [<-|I]; [now injection E as <-|]). destruct I. Qed.
Lemma holds_typed a b xs : is_float a = false -> is_float b = false -> holds_integers a b = true -> Forall (typed a) xs -> Forall (typed b) xs.
Proof.
  intros Fa Fb H T. eapply Forall_impl; [|exact T]. intros x Tx. destruct (typed_int a x Fa Tx) as [z ->]. destruct Tx as [_ Tx].
  unfold holds_integers in H. rewrite Fa, Fb in H. split; [assumption|lia].
Qed.
Lemma same_fix t1 t2 d : 0 <= t1 <= 10 -> 0 <= t2 <= 10 -> of_num t1 = Some d -> of_num t2 = Some d -> fix_long t1 = fix_long t2.
Proof.
  intros B1 B2 E1 E2. pose proof (in11 t1 B1) as I1. pose proof (in11 t2 B2) as I2. cbn in I1, I2.
  repeat (destruct I1 as [<-|I1]; [injection E1 as <-; repeat (destruct I2 as [<-|I2]; [first [discriminate | reflexivity]|]); destruct I2|]). destruct I1.
Qed.
Lemma fix_same t1 t2 : 0 <= t1 <= 10 -> 0 <= t2 <= 10 -> fix_long t1 = fix_long t2 -> of_num t1 = of_num t2 /\ 0 <= fix_long t1 <= 10 /\ of_num (fix_long t1) = of_num t1.
Proof.
  intros B1 B2 E. pose proof (in11 t1 B1) as I1. pose proof (in11 t2 B2) as I2. cbn in I1, I2.
  repeat (destruct I1 as [<-|I1]; [repeat (destruct I2 as [<-|I2]; [first [discriminate | repeat split; try reflexivity; cbn; lia]|]); destruct I2|]). destruct I1.
Qed.
Lemma clash_not t1 t2 : 0 <= t1 <= 10 -> 0 <= t2 <= 10 -> ~ (long_unsigned t1 /\ signed t2) -> ~ (signed t1 /\ long_unsigned t2) -> clash t1 t2 = false.
Proof.
  intros B1 B2 N1 N2. unfold long_unsigned, signed in *. cbn in N1, N2.
  pose proof (in11 t1 B1) as I1. pose proof (in11 t2 B2) as I2. cbn in I1, I2.
  repeat (destruct I1 as [<-|I1]; [repeat (destruct I2 as [<-|I2]; [first [reflexivity | exfalso; lia]|]); destruct I2|]). destruct I1.
Qed.

Lemma int_arrays cmp t1 t2 d1 d2 xs ys : 0 <= t1 <= 10 -> 0 <= t2 <= 10 -> of_num t1 = Some d1 -> of_num t2 = Some d2 ->
  ~ (long_unsigned t1 /\ signed t2) -> ~ (signed t1 /\ long_unsigned t2) -> length xs = length ys -> Forall (typed d1) xs -> Forall (typed d2) ys ->
  d1 = d2 \/ Forall (plain d1) xs /\ Forall (plain d2) ys ->
  exists p, CheckInputs cmp false (Arr t1 xs) (Arr t2 ys) = Some p /\ same_integers p NoScalars xs ys.
Proof.
  intros B1 B2 E1 E2 N1 N2 L T1 T2 P. cbn [CheckInputs]. rewrite L, Nat.eqb_refl. unfold CheckUpcast.
  pose proof (int_num t1 d1 B1 E1) as F1. pose proof (int_num t2 d2 B2 E2) as F2.
  destruct (Z.eqb_spec t1 t2) as [<-|N].
  - rewrite E1 in E2. injection E2 as <-. eexists. split; [reflexivity|]. repeat (split; [first [reflexivity | cbn; lia]|]). exists d1. repeat split; assumption.
  - destruct (Z.eqb_spec (fix_long t1) (fix_long t2)) as [E|Nf].
    + destruct (fix_same t1 t2 B1 B2 E) as (A & B & C). rewrite E1, E2 in A. injection A as <-. eexists. split; [reflexivity|].
      repeat (split; [first [reflexivity | cbn; lia]|]). exists d1. cbn. rewrite C. repeat split; assumption.
    + destruct (pair_checks cmp t1 t2 B1 B2 (clash_not t1 t2 B1 B2 N1 N2)) as (C & _ & _).
      assert (D12 : d1 <> d2). { intros ->. apply Nf. now apply (same_fix t1 t2 d2). }
      destruct (pair_use cmp (fix_long t1) (fix_long t2) t1 t2 d1 d2 xs ys C E1 E2 F1 F2 T1 T2 P) as (c & d & G & Ed & Bc & Fd & H1 & H2 & X1 & X2).
      destruct X1 as [X1|[X1 _]]; [|contradiction]. destruct X2 as [X2|[X2 _]]; [|contradiction].
      rewrite G, X1, X2. eexists. split; [reflexivity|]. repeat (split; [first [reflexivity | assumption]|]). exists d. split; [assumption|].
      split; [now apply (holds_typed d1)|now apply (holds_typed d2)].
Qed.

(** ** One item *)
Lemma single_ok x t u d1 d : 0 <= t <= 10 -> 0 <= u <= 10 -> of_num t = Some d1 -> of_num u = Some d -> typed d1 (VI x) -> typed d (VI x) -> - 2 ^ 63 <= x < 2 ^ 63 ->
  ConvertSingleItemArray (VI x) t u = Some (VI x).
Proof.
  intros B1 B2 E1 E2 [F1 T1] [F2 T2] R. unfold ConvertSingleItemArray. rewrite E1, E2.
  pose proof (wrap_id 64 x ltac:(lia) ltac:(cbn; lia)) as W. cbv zeta. rewrite W.
  destruct d1; try discriminate F1; destruct d; try discriminate F2; cbv iota; f_equal; f_equal;
    first [apply wrapT_id; [reflexivity|discriminate|assumption] | rewrite (wrap_id 8) by (cbn in *; lia); reflexivity].
Qed.
Lemma num_longlong t d : 0 <= t <= 10 -> of_num t = Some d -> of_num (fix_longlong t) = Some d /\ 0 <= fix_longlong t <= 10.
Proof. intros B E. pose proof (in11 t B) as I. cbn in I. repeat (destruct I as [<-|I]; [cbn in *; split; [assumption|lia]|]). destruct I. Qed.
Lemma one_item_first cmp t1 t2 d1 d2 x ys : 0 <= t1 <= 10 -> 0 <= t2 <= 10 -> of_num t1 = Some d1 -> of_num t2 = Some d2 ->
  ~ (long_unsigned t1 /\ signed t2) -> ~ (signed t1 /\ long_unsigned t2) -> (1 < length ys)%nat -> typed d1 (VI x) -> - 2 ^ 63 <= x < 2 ^ 63 -> Forall (plain d2) ys ->
  exists p, CheckInputs cmp false (Arr t1 [VI x]) (Arr t2 ys) = Some p /\ same_integers p First [VI x] ys.
Proof.
  intros B1 B2 E1 E2 N1 N2 L Tx R P.
  pose proof (int_num t1 d1 B1 E1) as F1. pose proof (int_num t2 d2 B2 E2) as F2.
  assert (T2 : Forall (typed d2) ys) by (eapply Forall_impl; [|exact P]; intros ? []; assumption).
  destruct (pair_checks cmp t1 t2 B1 B2 (clash_not t1 t2 B1 B2 N1 N2)) as (_ & C & _).
  destruct ys as [|y [|y' ys]]; cbn [length] in L; try lia. set (Y := y :: y' :: ys) in *.
  unfold pair_check in C. destruct (GetUpcastType cmp (fix_longlong t1) t2) as [[c c']|] eqn:G; [|discriminate].
  rewrite E1, E2 in C. apply andb_prop in C as [C C2]. apply andb_prop in C as [C C3]. apply andb_prop in C as [C C4]. apply Z.eqb_eq in C. subst c'.
  destruct (of_num c) as [d|] eqn:Ed; [|discriminate]. apply andb_prop in C2 as [C2 C5]. apply andb_prop in C2 as [C2 C6]. apply andb_prop in C2 as [C2 C7]. apply andb_prop in C2 as [C2 C8].
  apply negb_true_iff in C2.
  destruct (num_longlong t1 d1 B1 E1) as [En Bn].
  assert (Tdx : typed d (VI x)). { pose proof (holds_typed d1 d [VI x] F1 C2 C8 (Forall_cons _ Tx (Forall_nil _))) as W. now inversion W. }
  destruct (conv_if_ints t2 c d2 d Y E2 Ed F2 C2 C7 T2 (or_intror P)) as [K1 K2].
  unfold CheckInputs. replace (length [VI x] =? length Y)%nat with false by reflexivity. cbv iota beta. unfold Y at 1. rewrite G.
  rewrite (single_ok x _ c d1 d Bn ltac:(lia) En Ed Tx Tdx R). rewrite K1.
  eexists. split; [reflexivity|]. repeat (split; [first [reflexivity | cbn; lia]|]). exists d. split; [assumption|]. split; [exact (Forall_cons _ Tdx (Forall_nil _))|assumption].
Qed.
Lemma one_item_second cmp t1 t2 d1 d2 xs y : 0 <= t1 <= 10 -> 0 <= t2 <= 10 -> of_num t1 = Some d1 -> of_num t2 = Some d2 ->
  ~ (long_unsigned t1 /\ signed t2) -> ~ (signed t1 /\ long_unsigned t2) -> (1 < length xs)%nat -> typed d2 (VI y) -> - 2 ^ 63 <= y < 2 ^ 63 -> Forall (plain d1) xs ->
  exists p, CheckInputs cmp false (Arr t1 xs) (Arr t2 [VI y]) = Some p /\ same_integers p Second xs [VI y].
Proof.
  intros B1 B2 E1 E2 N1 N2 L Ty R P.
  pose proof (int_num t1 d1 B1 E1) as F1. pose proof (int_num t2 d2 B2 E2) as F2.
  assert (T1 : Forall (typed d1) xs) by (eapply Forall_impl; [|exact P]; intros ? []; assumption).
  destruct (pair_checks cmp t1 t2 B1 B2 (clash_not t1 t2 B1 B2 N1 N2)) as (_ & _ & C).
  destruct xs as [|x [|x' xs]]; cbn [length] in L; try lia. set (X := x :: x' :: xs) in *.
  unfold pair_check in C. destruct (GetUpcastType cmp t1 (fix_longlong t2)) as [[c c']|] eqn:G; [|discriminate].
  rewrite E1, E2 in C. apply andb_prop in C as [C C2]. apply andb_prop in C as [C C3]. apply andb_prop in C as [C C4]. apply Z.eqb_eq in C. subst c'.
  destruct (of_num c) as [d|] eqn:Ed; [|discriminate]. apply andb_prop in C2 as [C2 C5]. apply andb_prop in C2 as [C2 C6]. apply andb_prop in C2 as [C2 C7]. apply andb_prop in C2 as [C2 C8].
  apply negb_true_iff in C2.
  destruct (num_longlong t2 d2 B2 E2) as [En Bn].
  assert (Tdy : typed d (VI y)). { pose proof (holds_typed d2 d [VI y] F2 C2 C7 (Forall_cons _ Ty (Forall_nil _))) as W. now inversion W. }
  destruct (conv_if_ints t1 c d1 d X E1 Ed F1 C2 C8 T1 (or_intror P)) as [K1 K2].
  unfold CheckInputs. replace (length X =? length [VI y])%nat with false by reflexivity. cbv iota beta. unfold X at 1. rewrite G.
  rewrite (single_ok y _ c d2 d Bn ltac:(lia) En Ed Ty Tdy R). fold X. rewrite K1.
  eexists. split; [reflexivity|]. repeat (split; [first [reflexivity | cbn; lia]|]). exists d. split; [assumption|]. split; [assumption|exact (Forall_cons _ Tdy (Forall_nil _))].
Qed.

(** ** Floats *)
Lemma conv_fits d u x : fits d u x -> exists y, convert_safe d u x = Some y /\ same_number u x y.
Proof.
  intros [[T N] (r & D & Rp)]. destruct (convert_safe_keeps d u x r T N D Rp) as (y & E & Ty & Dy). exists y. split; [assumption|]. split; [assumption|]. now exists r.
Qed.
Lemma conv_fits_all d u xs : Forall (fits d u) xs -> exists ys, all_some (map (convert_safe d u) xs) = Some ys /\ Forall2 (same_number u) xs ys.
Proof.
  induction 1 as [|x xs F _ (ys & E & H)]; [now exists []|]. destruct (conv_fits d u x F) as (y & Ey & S). exists (y :: ys). cbn [map all_some]. rewrite Ey, E. split; [reflexivity|]. now constructor.
Qed.
Lemma fits_same d xs : Forall (fits d d) xs -> Forall2 (same_number d) xs xs.
Proof. induction 1 as [|x xs [[T N] (r & D & Rp)] _ IH]; constructor; auto. split; [assumption|]. now exists r. Qed.

Lemma in13 t : 0 <= t <= 12 -> In t [0;1;2;3;4;5;6;7;8;9;10;11;12]. Proof. cbn. lia. Qed.
Definition fl_check (cmp : bool) (t1 t2 : Z) : bool :=
  ((t1 <? 11) && (t2 <? 11)) ||
  match GetUpcastType cmp (fix_long t1) (fix_long t2) with
  | Some (c, c') => (c =? c') && (c =? (if (t1 =? 12) || (t2 =? 12) then 12 else 11)) && Bool.eqb (fix_long t1 =? c) (t1 =? c) && Bool.eqb (fix_long t2 =? c) (t2 =? c)
  | None => false
  end.
Lemma fl_check_true : forallb (fun cmp => forallb (fun t1 => forallb (fl_check cmp t1) [0;1;2;3;4;5;6;7;8;9;10;11;12]) [0;1;2;3;4;5;6;7;8;9;10;11;12]) [true; false] = true.
Proof. vm_compute. reflexivity. Qed.
Lemma mixed_arrays cmp t1 t2 d1 d2 xs ys : 0 <= t1 <= 12 -> 0 <= t2 <= 12 -> 11 <= t1 \/ 11 <= t2 -> of_num t1 = Some d1 -> of_num t2 = Some d2 ->
  length xs = length ys -> Forall (fits d1 (float_type t1 t2)) xs -> Forall (fits d2 (float_type t1 t2)) ys ->
  exists p, CheckInputs cmp false (Arr t1 xs) (Arr t2 ys) = Some p /\ same_numbers p NoScalars (float_type t1 t2) xs ys.
Proof.
  intros B1 B2 F E1 E2 L X Y. cbn [CheckInputs]. rewrite L, Nat.eqb_refl. unfold CheckUpcast.
  set (c0 := if (t1 =? 12) || (t2 =? 12) then 12 else 11).
  assert (Ec : of_num c0 = Some (float_type t1 t2)) by (unfold c0, float_type; destruct ((t1 =? 12) || (t2 =? 12)); reflexivity).
  assert (C13 : c0 <> 13) by (unfold c0; destruct ((t1 =? 12) || (t2 =? 12)); lia).
  destruct (Z.eqb_spec t1 t2) as [<-|N].
  - assert (Et : c0 = t1) by (unfold c0; rewrite orb_diag; destruct (Z.eqb_spec t1 12); lia).
    rewrite <- Et, Ec in E1. injection E1 as <-. rewrite <- Et, Ec in E2. injection E2 as <-.
    eexists. split; [reflexivity|]. split; [reflexivity|]. split; [reflexivity|]. cbn [ty1 in1 in2]. split; [congruence|]. split; [congruence|]. split; now apply fits_same.
  - pose proof fl_check_true as U. rewrite forallb_forall in U. specialize (U cmp ltac:(destruct cmp; cbn; tauto)). rewrite forallb_forall in U. specialize (U t1 (in13 t1 B1)).
    rewrite forallb_forall in U. specialize (U t2 (in13 t2 B2)). unfold fl_check in U.
    replace ((t1 <? 11) && (t2 <? 11)) with false in U by (symmetry; apply andb_false_iff; lia). cbn [orb] in U. fold c0 in U.
    destruct (Z.eqb_spec (fix_long t1) (fix_long t2)) as [E|_].
    { exfalso. unfold fix_long in E. destruct (Z.eqb_spec t1 7), (Z.eqb_spec t1 8), (Z.eqb_spec t2 7), (Z.eqb_spec t2 8); cbn in E; lia. }
    destruct (GetUpcastType cmp (fix_long t1) (fix_long t2)) as [[c c']|]; [|discriminate].
    apply andb_prop in U as [U U4]. apply andb_prop in U as [U U3]. apply andb_prop in U as [U U2]. apply Z.eqb_eq in U, U2. subst c' c. apply Bool.eqb_prop in U3, U4.
    rewrite U3, U4. unfold conv_arr. rewrite E1, E2, Ec.
    assert (H1 : exists xs', (if t1 =? c0 then Some xs else all_some (map (convert_safe d1 (float_type t1 t2)) xs)) = Some xs' /\ Forall2 (same_number (float_type t1 t2)) xs xs').
    { destruct (Z.eqb_spec t1 c0) as [Et|_]; [|now apply conv_fits_all]. exists xs. split; [reflexivity|]. rewrite Et, Ec in E1. injection E1 as <-. now apply fits_same. }
    assert (H2 : exists ys', (if t2 =? c0 then Some ys else all_some (map (convert_safe d2 (float_type t1 t2)) ys)) = Some ys' /\ Forall2 (same_number (float_type t1 t2)) ys ys').
    { destruct (Z.eqb_spec t2 c0) as [Et|_]; [|now apply conv_fits_all]. exists ys. split; [reflexivity|]. rewrite Et, Ec in E2. injection E2 as <-. now apply fits_same. }
    destruct H1 as (xs' & -> & H1). destruct H2 as (ys' & -> & H2). eexists. split; [reflexivity|]. split; [reflexivity|]. split; [reflexivity|]. cbn. auto.
Qed.
Lemma float_scalar_second cmp t d xs f : 0 <= t <= 12 -> of_num t = Some d -> typed F64 (VF f) ->
  Forall (fits d (float_type t (if t =? 11 then t else 12))) xs -> (exists r, denotes (VF f) r /\ representable (float_type t (if t =? 11 then t else 12)) r) ->
  exists p, CheckInputs cmp false (Arr t xs) (Sca (PyFloat f)) = Some p /\ same_numbers p Second (float_type t (if t =? 11 then t else 12)) xs [VF f].
Proof.
  intros B E Tf X (r & Df & Rf). cbn [CheckInputs PossiblyUpcast].
  set (c0 := if t =? 11 then 11 else 12).
  assert (Ec : of_num c0 = Some (float_type t (if t =? 11 then t else 12))) by (unfold c0, float_type; destruct (Z.eqb_spec t 11); [subst; reflexivity|now rewrite orb_true_r]).
  assert (Up : (if t <=? 10 then 12 else t) = c0) by (unfold c0; destruct (Z.leb_spec t 10), (Z.eqb_spec t 11); lia). rewrite Up.
  set (u := float_type t (if t =? 11 then t else 12)) in *.
  assert (H1 : exists xs', conv_if t c0 xs = Some xs' /\ Forall2 (same_number u) xs xs').
  { unfold conv_if, conv_arr. rewrite E, Ec. destruct (Z.eqb_spec t c0) as [Et|_]; [|now apply conv_fits_all]. exists xs. split; [reflexivity|]. rewrite Et, Ec in E. injection E as <-. now apply fits_same. }
  destruct (cast_keeps F64 u (VF f) r Tf Df Rf) as (y & Ey & Ty & Dy).
  assert (H2 : ConvertScalarObject (PyFloat f) c0 = Some y).
  { cbn [ConvertScalarObject]. rewrite Ec. unfold u, float_type in *. destruct (Z.eqb_spec t 11) as [->|]; cbn in *; [assumption|]. rewrite orb_true_r in *. assumption. }
  destruct H1 as (xs' & -> & H1). rewrite H2. eexists. split; [reflexivity|]. split; [reflexivity|]. split; [reflexivity|]. cbn [ty1 in1 in2]. split; [assumption|].
  split; [unfold c0; destruct (t =? 11); lia|]. split; [assumption|]. constructor; [|constructor]. split; [assumption|]. now exists r.
Qed.
