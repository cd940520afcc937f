(** The threads that write the arrays, in any order. *)
From Verif Require Import Base SdsModel SdsSpec SdsProofs Sds2Proofs Sds3Proofs.
Local Open Scope Z_scope.
Local Opaque le.

Lemma length_add_to : forall h i v, length (add_to h i v) = length h.
Proof. intros. apply length_upd. Qed.
Lemma fld_upd_eq : forall h i v, (i < length h)%nat -> fld (upd h i v) i = v.
Proof. intros h i v L. unfold fld. apply nth_error_nth. now apply nth_error_upd_eq. Qed.
Lemma fld_upd_neq : forall h i j v, i <> j -> fld (upd h i v) j = fld h j.
Proof.
  intros h i j v N. unfold fld. destruct (Nat.lt_ge_cases j (length h)) as [L|L].
  - destruct (nth_error h j) as [x|] eqn:E; [|apply nth_error_None in E; lia]. rewrite (nth_error_nth _ _ _ E).
    apply nth_error_nth. now rewrite nth_error_upd_neq.
  - rewrite !nth_overflow by (rewrite ?length_upd; lia). reflexivity.
Qed.
Lemma fld_add_eq : forall h i v, (i < length h)%nat -> fld (add_to h i v) i = fld h i + v.
Proof. intros. now apply fld_upd_eq. Qed.
Lemma fld_add_neq : forall h i j v, i <> j -> fld (add_to h i v) j = fld h j.
Proof. intros. now apply fld_upd_neq. Qed.

Definition begun (x : wstat) : bool := match x with WTodo => false | _ => true end.
Definition dA : array := A 0 0 [] [] 0 [].

Section Workers.
Context (k : codec) (w : winfo) (h0 : list Z) (f1 : file).
Context (HL : length h0 = 33%nat) (HB : fld h0 hBandSize = band_used w) (HT : fld h0 TotalArrayCompressedSize = 0) (HW : fld h0 ArraysWritten = 0)
        (HF : 0 <= fld h0 ArrayFirstOffset) (HM : fld h0 ArrayFirstOffset mod 512 = 0).
Definition pk (a : array) : list Z * Z * Z := pack_array k (w_comp w) (band_used w) a.
Definition bytes (a : array) : list Z := fst (fst (pk a)).
Definition first : Z := fld h0 ArrayFirstOffset.
Definition started (s : wstate) (t : nat) : Prop := exists st, nth_error (s_stat s) t = Some st /\ begun st = true.

Record winv (offs : nat -> Z) (s : wstate) : Prop := {
  wi_stat : length (s_stat s) = length (w_arrays w);
  wi_blocks : length (s_blocks s) = length (w_arrays w);
  wi_hlen : length (s_head s) = 33%nat;
  wi_head : forall i, i <> ArraysWritten -> i <> TotalArrayCompressedSize -> i <> TotalArrayUncompressedSize -> fld (s_head s) i = fld h0 i;
  wi_count : fld (s_head s) ArraysWritten = Z.of_nat (countb begun (s_stat s));
  wi_tc : 0 <= fld (s_head s) TotalArrayCompressedSize /\ fld (s_head s) TotalArrayCompressedSize mod 512 = 0;
  wi_place : forall t a, nth_error (w_arrays w) t = Some a -> started s t ->
    first <= offs t /\ offs t + pad (len (bytes a)) <= first + fld (s_head s) TotalArrayCompressedSize /\ offs t mod 512 = 0
    /\ nth_error (s_blocks s) t = Some (fill_block a (offs t) (len (bytes a)) (snd (fst (pk a))) (snd (pk a)));
  wi_res : forall t o, nth_error (s_stat s) t = Some (WReserved o) -> o = offs t;
  wi_done : forall t a, nth_error (w_arrays w) t = Some a -> nth_error (s_stat s) t = Some WDone -> has (s_file s) (offs t) (bytes a);
  wi_disj : forall t u a b, t <> u -> nth_error (w_arrays w) t = Some a -> nth_error (w_arrays w) u = Some b -> started s t -> started s u ->
    offs t + pad (len (bytes a)) <= offs u \/ offs u + pad (len (bytes b)) <= offs t;
  wi_old : forall o x, o + len x <= first -> has f1 o x -> has (s_file s) o x;
  wi_grow : len f1 <= len (s_file s);
  wi_end : fld (s_head s) TotalArrayCompressedSize = 0 \/
    exists t a, nth_error (w_arrays w) t = Some a /\ started s t /\ bytes a <> [] /\ offs t + pad (len (bytes a)) = first + fld (s_head s) TotalArrayCompressedSize }.

Definition start : wstate := WS f1 h0 (repeat (repeat 0 23) (length (w_arrays w))) (repeat WTodo (length (w_arrays w))).
Lemma not_started_start : forall t, ~ started start t.
Proof.
  intros t [st [E B]]. cbn in E. apply nth_error_In in E. apply repeat_spec in E. subst. discriminate B.
Qed.
Lemma winv_start : winv (fun _ => 0) start.
Proof.
  constructor; cbn [start s_stat s_blocks s_head s_file]; try (rewrite repeat_length; reflexivity); try assumption; try reflexivity; auto.
  - rewrite HW. assert (E : forall n, countb begun (repeat WTodo n) = O) by (induction n; [reflexivity | assumption]). rewrite E. reflexivity.
  - rewrite HT. split; [lia | reflexivity].
  - intros t a E S. destruct (not_started_start t S).
  - intros t o E. apply nth_error_In in E. apply repeat_spec in E. discriminate E.
  - intros t a E D. apply nth_error_In in D. apply repeat_spec in D. discriminate D.
  - intros t u a b N E1 E2 S. destruct (not_started_start t S).
Qed.

Lemma pk_eta : forall a, pk a = (bytes a, snd (fst (pk a)), snd (pk a)).
Proof. intro a. unfold bytes. destruct (pk a) as [[x y] z]. reflexivity. Qed.

Lemma winv_step : forall offs s e s', winv offs s -> wstep k w e s = Some s' -> exists offs', winv offs' s'.
Proof.
  intros offs s e s' I E. pose proof I as I'. destruct I'.
  assert (BND : fld (s_head s) hBandSize = band_used w) by (rewrite wi_head0; [assumption | discriminate ..]).
  assert (FST : fld (s_head s) ArrayFirstOffset = first) by (rewrite wi_head0; [reflexivity | discriminate ..]).
  destruct e as [t|t]; cbn [wstep] in E; destruct (nth_error (w_arrays w) t) as [a|] eqn:EA; try discriminate E;
    destruct (nth_error (s_stat s) t) as [[|o|]|] eqn:ES; try discriminate E; rewrite BND in E; fold (pk a) in E; rewrite (pk_eta a) in E.
  - (* Reserve *)
    rewrite FST in E. set (tc := fld (s_head s) TotalArrayCompressedSize) in *. injection E as <-.
    set (off := first + tc) in *. set (h' := add_to (add_to (add_to (s_head s) ArraysWritten 1) TotalArrayUncompressedSize (len (a_data a))) TotalArrayCompressedSize (pad (len (bytes a)))).
    assert (PN : 0 <= pad (len (bytes a))) by (apply pad_nonneg, len_nonneg).
    assert (T' : fld h' TotalArrayCompressedSize = tc + pad (len (bytes a))).
    { unfold h'. rewrite fld_add_eq by (rewrite !length_add_to, wi_hlen0; apply Nat.ltb_lt; reflexivity). rewrite !fld_add_neq by discriminate. reflexivity. }
    assert (ST' : forall u, started {| s_file := s_file s; s_head := h'; s_blocks := upd (s_blocks s) t (fill_block a off (len (bytes a)) (snd (fst (pk a))) (snd (pk a))); s_stat := upd (s_stat s) t (WReserved off) |} u -> u = t \/ (u <> t /\ started s u)).
    { intros u [st [E1 E2]]. cbn [s_stat] in E1. destruct (Nat.eq_dec u t) as [-> | N]; [now left | right]. split; [assumption|].
      rewrite nth_error_upd_neq in E1 by congruence. exists st. auto. }
    assert (TL : (t < length (s_stat s))%nat) by (apply nth_error_Some; congruence).
    exists (fun u => if Nat.eqb u t then off else offs u).
    constructor; cbn [s_file s_head s_blocks s_stat].
    + rewrite length_upd. assumption.
    + rewrite length_upd. assumption.
    + unfold h'. rewrite !length_add_to. assumption.
    + intros i N1 N2 N3. unfold h'. rewrite !fld_add_neq by congruence. now apply wi_head0.
    + unfold h'. rewrite !fld_add_neq by discriminate. rewrite fld_add_eq by (rewrite wi_hlen0; apply Nat.ltb_lt; reflexivity). rewrite wi_count0.
      pose proof (countb_upd begun (s_stat s) t (WReserved off) WTodo ES) as CU. cbn [begun] in CU. lia.
    + rewrite T'. split; [lia|]. apply mod_add; [tauto | apply pad_mod].
    + intros u b EB SU. rewrite T'. destruct (ST' u SU) as [-> | [N SU']].
      * rewrite Nat.eqb_refl. rewrite EA in EB. injection EB as <-. unfold off. repeat split; try lia.
        -- apply mod_add; [exact HM | tauto].
        -- rewrite nth_error_upd_eq by lia. reflexivity.
      * apply Nat.eqb_neq in N as N'. rewrite N'. destruct (wi_place0 u b EB SU') as [P1 [P2 [P3 P4]]]. repeat split; try assumption; try lia.
        rewrite nth_error_upd_neq by congruence. assumption.
    + intros u o EO. destruct (Nat.eqb u t) eqn:N.
      * apply Nat.eqb_eq in N. subst u. rewrite nth_error_upd_eq in EO by assumption. congruence.
      * apply Nat.eqb_neq in N. rewrite nth_error_upd_neq in EO by congruence. now apply wi_res0.
    + intros u b EB EO. destruct (Nat.eqb u t) eqn:N.
      * apply Nat.eqb_eq in N. subst u. rewrite nth_error_upd_eq in EO by assumption. discriminate EO.
      * apply Nat.eqb_neq in N. rewrite nth_error_upd_neq in EO by congruence. now apply wi_done0.
    + intros u v b c N EB EC SU SV. destruct (ST' u SU) as [-> | [NU SU']]; destruct (ST' v SV) as [-> | [NV SV']]; [congruence | | |].
      * rewrite Nat.eqb_refl. apply Nat.eqb_neq in NV. rewrite NV. right. destruct (wi_place0 v c EC SV') as [_ [P2 _]]. exact P2.
      * rewrite Nat.eqb_refl. apply Nat.eqb_neq in NU. rewrite NU. left. destruct (wi_place0 u b EB SU') as [_ [P2 _]]. exact P2.
      * apply Nat.eqb_neq in NU, NV. rewrite NU, NV. eapply wi_disj0; eassumption.
    + assumption.
    + assumption.
    + rewrite T'. destruct (bytes a) as [|x xs] eqn:BE.
      * change (pad (len [])) with 0. rewrite Z.add_0_r. destruct wi_end0 as [Z0 | [u [b [EB [SU [NE EQ]]]]]]; [now left | right].
        exists u, b. assert (N : u <> t). { intros ->. destruct SU as [st [E1 E2]]. rewrite ES in E1. injection E1 as <-. discriminate E2. }
        apply Nat.eqb_neq in N as N'. rewrite N'. repeat split; try assumption. destruct SU as [st [E1 E2]]. exists st. cbn [s_stat]. rewrite nth_error_upd_neq by congruence. auto.
      * right. exists t, a. rewrite Nat.eqb_refl. rewrite BE. repeat split; try assumption.
        -- exists (WReserved off). cbn [s_stat]. rewrite nth_error_upd_eq by assumption. auto.
        -- discriminate.
        -- unfold off. lia.
  - (* Write *)
    injection E as <-. assert (TL : (t < length (s_stat s))%nat) by (apply nth_error_Some; congruence).
    assert (SS : started s t) by (exists (WReserved o); auto).
    pose proof (wi_res0 t o ES) as ->.
    assert (ST' : forall u, started {| s_file := pwrite (s_file s) (offs t) (bytes a); s_head := s_head s; s_blocks := s_blocks s; s_stat := upd (s_stat s) t WDone |} u -> started s u).
    { intros u [st [E1 E2]]. cbn [s_stat] in E1. destruct (Nat.eq_dec u t) as [-> | N]; [assumption|].
      rewrite nth_error_upd_neq in E1 by congruence. exists st. auto. }
    destruct (wi_place0 t a EA SS) as [P1 [P2 [P3 P4]]].
    exists offs. constructor; cbn [s_file s_head s_blocks s_stat]; auto.
    + rewrite length_upd. assumption.
    + rewrite wi_count0. pose proof (countb_upd begun (s_stat s) t WDone (WReserved (offs t)) ES) as CU. cbn [begun] in CU. lia.
    + intros u o EO. destruct (Nat.eq_dec u t) as [-> | N]; [rewrite nth_error_upd_eq in EO by assumption; discriminate EO|].
      rewrite nth_error_upd_neq in EO by congruence. now apply wi_res0.
    + intros u b EB EO. destruct (Nat.eq_dec u t) as [-> | N].
      * rewrite EA in EB. injection EB as <-. apply has_pwrite_same. unfold first in P1. lia.
      * rewrite nth_error_upd_neq in EO by congruence. apply has_pwrite_other; [now apply wi_done0 | unfold first in P1; lia |].
        assert (SU : started s u) by (exists WDone; auto). pose proof (pad_ge (len (bytes a))). pose proof (pad_ge (len (bytes b))).
        destruct (wi_disj0 u t b a N EB EA SU SS); [left | right]; lia.
    + intros o x L H. apply has_pwrite_other; [now apply wi_old0 | unfold first in P1; lia | left; lia].
    + pose proof (len_pwrite_ge (s_file s) (offs t) (bytes a) ltac:(unfold first in P1; lia)). lia.
    + destruct wi_end0 as [Z0 | [u [b [EB [SU [NE EQ]]]]]]; [now left | right]. exists u, b. repeat split; try assumption.
      destruct SU as [st [E1 E2]]. destruct (Nat.eq_dec u t) as [-> | N].
      * exists WDone. cbn [s_stat]. rewrite nth_error_upd_eq by assumption. auto.
      * exists st. cbn [s_stat]. rewrite nth_error_upd_neq by congruence. auto.
Qed.
Lemma winv_run : forall es offs s s', winv offs s -> wrun k w es s = Some s' -> exists offs', winv offs' s'.
Proof.
  induction es as [|e es IH]; intros offs s s' I E; cbn [wrun] in E; [injection E as <-; exists offs; exact I|].
  destruct (wstep k w e s) as [s1|] eqn:E1; [|discriminate E]. destruct (winv_step offs s e s1 I E1) as [offs1 I1]. eapply IH; eassumption.
Qed.

(* a schedule in which every array is done runs through *)
Lemma wrun_app : forall e1 e2 s, wrun k w (e1 ++ e2) s = match wrun k w e1 s with Some s' => wrun k w e2 s' | None => None end.
Proof. induction e1 as [|e e1 IH]; intros; cbn [app wrun]; [reflexivity|]. destruct (wstep k w e s); [apply IH | reflexivity]. Qed.
End Workers.

Lemma wrun_total : forall k w es s, length (s_stat s) = length (w_arrays w) ->
  (forall t, (t < length (w_arrays w))%nat -> 
     match nth_error (s_stat s) t with Some WTodo => filter (of_array t) es = [Reserve t; Write t] | Some (WReserved _) => filter (of_array t) es = [Write t] | Some WDone => filter (of_array t) es = [] | None => False end) ->
  (forall t, (length (w_arrays w) <= t)%nat -> filter (of_array t) es = []) ->
  exists s', wrun k w es s = Some s' /\ forallb (fun x => match x with WDone => true | _ => false end) (s_stat s') = true.
Proof.
  induction es as [|e es IH]; intros s L H OUT.
  - exists s. split; [reflexivity|]. apply forallb_forall. intros x IN. apply In_nth_error in IN. destruct IN as [t E].
    assert (T : (t < length (w_arrays w))%nat) by (rewrite <- L; apply nth_error_Some; congruence). specialize (H t T). rewrite E in H. destruct x; [discriminate H | discriminate H | reflexivity].
  - assert (EV : exists t, of_array t e = true) by (destruct e as [t|t]; exists t; apply Nat.eqb_refl). destruct EV as [t ET].
    assert (FE : filter (of_array t) (e :: es) = e :: filter (of_array t) es) by (cbn [filter]; rewrite ET; reflexivity).
    assert (T : (t < length (w_arrays w))%nat).
    { destruct (Nat.lt_ge_cases t (length (w_arrays w))) as [T|T]; [assumption|]. rewrite (OUT t T) in FE. discriminate FE. }
    destruct (nth_error (w_arrays w) t) as [a|] eqn:EA; [|apply nth_error_None in EA; lia].
    pose proof (H t T) as HT. rewrite FE in HT. destruct (nth_error (s_stat s) t) as [[|o|]|] eqn:ES; [| | discriminate HT | contradiction].
    + injection HT as -> HT. 
      assert (ST : exists off, match wstep k w (Reserve t) s with Some s1 => s_stat s1 = upd (s_stat s) t (WReserved off) | None => False end).
      { cbn [wstep]. rewrite EA, ES. destruct (pack_array k (w_comp w) (fld (s_head s) hBandSize) a) as [[b c] d]. eexists. cbn [s_stat]. reflexivity. }
      destruct ST as [off ST]. cbn [wrun]. destruct (wstep k w (Reserve t) s) as [s1|]; [|contradiction]. apply IH.
      * rewrite ST, length_upd. assumption.
      * intros u U. destruct (Nat.eq_dec u t) as [-> | N].
        -- rewrite ST, nth_error_upd_eq by lia. assumption.
        -- rewrite ST, nth_error_upd_neq by congruence. specialize (H u U). cbn [filter of_array] in H.
           assert (X : Nat.eqb t u = false) by (apply Nat.eqb_neq; congruence). rewrite X in H. exact H.
      * intros u U. specialize (OUT u U). cbn [filter of_array] in OUT. destruct (Nat.eqb t u); [discriminate OUT | assumption].
    + injection HT as -> HT.
      assert (ST : match wstep k w (Write t) s with Some s1 => s_stat s1 = upd (s_stat s) t WDone | None => False end).
      { cbn [wstep]. rewrite EA, ES. destruct (pack_array k (w_comp w) (fld (s_head s) hBandSize) a) as [[b c] d]. reflexivity. }
      cbn [wrun]. destruct (wstep k w (Write t) s) as [s1|]; [|contradiction]. apply IH.
      * rewrite ST, length_upd. assumption.
      * intros u U. destruct (Nat.eq_dec u t) as [-> | N].
        -- rewrite ST, nth_error_upd_eq by lia. assumption.
        -- rewrite ST, nth_error_upd_neq by congruence. specialize (H u U). cbn [filter of_array] in H.
           assert (X : Nat.eqb t u = false) by (apply Nat.eqb_neq; congruence). rewrite X in H. exact H.
      * intros u U. specialize (OUT u U). cbn [filter of_array] in OUT. destruct (Nat.eqb t u); [discriminate OUT | assumption].
Qed.
