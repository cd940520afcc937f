(** Proofs about the thread pool model. *)
From Verif Require Import Base SchedModel SchedSpec.

(** ** Block arithmetic *)

Lemma land_mask z : Z.land z WORK_ITEM_MASK = (z mod WORK_ITEM_CHUNK)%Z.
Proof.
  unfold WORK_ITEM_MASK, WORK_ITEM_CHUNK.
  change (0x4000 - 1)%Z with (Z.ones 14). now rewrite Z.land_ones by lia.
Qed.

Definition chunk_req (len w : Z) : request := mkReq len w WORK_ITEM_CHUNK true.

Lemma chunk_last len w : (0 <= len)%Z ->
  Z.of_nat (block_last (chunk_req len w)) = ((len + (WORK_ITEM_CHUNK - 1)) / WORK_ITEM_CHUNK)%Z.
Proof.
  intros H; unfold block_last, chunk_req; simpl. unfold WORK_ITEM_CHUNK. rewrite Z2Nat.id; lia.
Qed.

Lemma block_len_bounds call len w b : (0 <= len)%Z ->
  let it := fill call (chunk_req len w) in
  b < itBlockLast it ->
  (0 < block_len it false b)%Z /\
  (block_start it b + block_len it false b = Z.min len (block_start it (S b)))%Z.
Proof.
  intros Hl it Hb. assert (HL := chunk_last len w Hl).
  change (block_last (chunk_req len w)) with (itBlockLast it) in HL.
  unfold block_len, block_start. rewrite (proj2 (Nat.ltb_lt _ _) Hb). simpl negb. cbn [andb].
  change (itTotal it) with len. change (itBlockSize it) with WORK_ITEM_CHUNK.
  rewrite land_mask. unfold WORK_ITEM_CHUNK in *.
  destruct (Nat.eqb_spec (b + 1) (itBlockLast it)) as [E|E]; cbn [andb].
  - destruct (Z.eqb_spec (len mod 0x4000)%Z 0%Z) as [E2|E2]; cbn [negb]; lia.
  - lia.
Qed.

Lemma block_len_none it i b : itBlockLast it <= b -> block_len it i b = 0%Z.
Proof. intros H; unfold block_len. now rewrite (proj2 (Nat.ltb_ge _ _) H). Qed.

Lemma chunk_cover call len w i : (0 <= i < len)%Z ->
  let it := fill call (chunk_req len w) in
  exists b, b < itBlockLast it /\ in_range (block_start it b) (block_len it false b) i.
Proof.
  intros Hi it. assert (HL := chunk_last len w ltac:(lia)).
  change (block_last (chunk_req len w)) with (itBlockLast it) in HL.
  exists (Z.to_nat (i / WORK_ITEM_CHUNK)).
  assert (Hb : Z.to_nat (i / WORK_ITEM_CHUNK) < itBlockLast it) by (unfold WORK_ITEM_CHUNK in *; lia).
  split; [exact Hb|].
  destruct (block_len_bounds call len w _ ltac:(lia) Hb) as [_ He].
  fold it in He. unfold in_range. rewrite He. unfold block_start.
  change (itBlockSize it) with WORK_ITEM_CHUNK. unfold WORK_ITEM_CHUNK in *. lia.
Qed.

Lemma chunk_unique call len w i b1 b2 : (0 <= len)%Z ->
  let it := fill call (chunk_req len w) in
  b1 < itBlockLast it -> b2 < itBlockLast it ->
  in_range (block_start it b1) (block_len it false b1) i ->
  in_range (block_start it b2) (block_len it false b2) i -> b1 = b2.
Proof.
  intros Hl it H1 H2 R1 R2.
  destruct (block_len_bounds call len w _ Hl H1) as [_ E1].
  destruct (block_len_bounds call len w _ Hl H2) as [_ E2].
  fold it in E1, E2. unfold in_range in *. rewrite E1 in R1. rewrite E2 in R2. unfold block_start in *.
  change (itBlockSize it) with WORK_ITEM_CHUNK in *. unfold WORK_ITEM_CHUNK in *. nia.
Qed.

(** ** The invariant *)
Definition awake (pc : wpc) : bool := match pc with WBorn | WFutex _ => false | _ => true end.
Definition infl_w (pc : wpc) : list nat := match pc with WGot _ _ b _ | WRun _ _ b => [b] | _ => [] end.
Definition infl_m (m : mpc) : list nat := match m with MGot b | MRun b => [b] | _ => [] end.
Definition fin_w (pc : wpc) : bool := match pc with WFin _ _ => true | _ => false end.
Definition fin_m (m : mpc) : nat := match m with MFin => 1 | _ => 0 end.
Definition live (m : mpc) : bool := match m with MIdle | MPub _ => false | _ => true end.
Definition cur (st : state) : nat := slot_of (WorkIndex st - 1).
Definition curit (st : state) : item := queue st (cur st).

Definition wok (wi : nat) (lv : bool) (bl : nat) (pc : wpc) : Prop :=
  match pc with
  | WRead i => i <= wi
  | WGate _ | WItem _ => lv = true
  | WDo _ s _ | WFin _ s | WGot _ s _ _ => lv = true /\ s = slot_of (wi - 1)
  | WRun _ s b => lv = true /\ s = slot_of (wi - 1) /\ b < bl
  | _ => True
  end.

Record Inv (st : state) : Prop := {
  i_awake : ThreadsAwakened st = Z.of_nat (countb awake (workers st));
  i_idx : WorkIndex st = WorkIndexCompleted st +
            (match main st with MIdle | MPub _ | MJoin => 0 | _ => 1 end);
  i_calls : length (calls st) = WorkIndex st + (match main st with MPub _ => 1 | _ => 0 end);
  i_wok : forall pc, In pc (workers st) -> wok (WorkIndex st) (live (main st)) (itBlockLast (curit st)) pc;
  i_pub : forall w, main st = MPub w ->
      exists r, nth_error (calls st) (WorkIndex st) = Some r /\
                queue st (slot_of (WorkIndex st)) = fill (S (WorkIndex st)) r;
  i_item : live (main st) = true ->
      itCall (curit st) = WorkIndex st /\ 0 < WorkIndex st /\
      exists r, nth_error (calls st) (WorkIndex st - 1) = Some r /\
        itBlockLast (curit st) = block_last r /\ itTotal (curit st) = rqLen r /\
        itBlockSize (curit st) = rqBlockSize r;
  i_perm : live (main st) = true ->
      exists d,
        Permutation (infl_m (main st) ++ flat_map infl_w (workers st) ++ ran_in st (WorkIndex st) ++ d)
                    (seq 0 (itBlockNext (curit st))) /\
        (intr_seen st = false -> forall b, In b d -> itBlockLast (curit st) <= b);
  i_done : live (main st) = true ->
      itDone (curit st) + fin_m (main st) + countb fin_w (workers st) = length (ran_in st (WorkIndex st));
  i_ran : forall k b, In (k, b) (ran st) -> 1 <= k <= WorkIndex st;
  i_ranlt : live (main st) = true -> forall b, In b (ran_in st (WorkIndex st)) -> b < itBlockLast (curit st);
  i_nodup : NoDup (ran st);
  i_mrun : forall b, main st = MRun b -> b < itBlockLast (curit st);
  i_intr : main st <> MIdle -> interrupted st = true -> intr_seen st = true;
  i_wait : (main st = MWait \/ main st = MComplete \/ main st = MJoin) -> intr_seen st = false ->
      itBlockLast (curit st) <= itBlockNext (curit st);
  i_end : (main st = MComplete \/ main st = MJoin) -> intr_seen st = false ->
      itBlockLast (curit st) <= itDone (curit st);
  i_idle : main st = MIdle -> 0 < WorkIndex st -> intr_seen st = false ->
      exists r, nth_error (calls st) (WorkIndex st - 1) = Some r /\
        forall b, In b (ran_in st (WorkIndex st)) <-> b < block_last r;
  i_hist : forall k b, In (k, b) (ran st) -> exists r, nth_error (calls st) (k - 1) = Some r /\ b < block_last r
}.

Lemma ran_in_cons st k b k' (r := ran st) :
  map snd (filter (fun e => fst e =? k') ((k, b) :: r)) =
  (if k =? k' then [b] else []) ++ map snd (filter (fun e => fst e =? k') r).
Proof. simpl. now destruct (k =? k'). Qed.

Lemma In_ran_in st k b : In b (ran_in st k) <-> In (k, b) (ran st).
Proof.
  unfold ran_in. rewrite in_map_iff. split.
  - intros ([k' b'] & <- & H). apply filter_In in H as [H E]. simpl in *.
    apply Nat.eqb_eq in E; now subst.
  - intros H. exists (k, b); split; auto. apply filter_In; split; auto. simpl. apply Nat.eqb_refl.
Qed.

Lemma inv_init n q : Inv (init n q).
Proof.
  constructor; simpl; try discriminate; try lia; auto; try (now intros; contradiction).
  - induction n; simpl; auto.
  - intros pc H. apply repeat_spec in H; subst; simpl; auto.
  - constructor.
  - intros [H|[H|H]]; discriminate.
  - intros [H|H]; discriminate.
Qed.

Lemma upd_mid {A} (a b : list A) x y : upd (a ++ x :: b) (length a) y = a ++ y :: b.
Proof. rewrite upd_app_r by lia. now rewrite Nat.sub_diag. Qed.

Definition same_static (a b : item) : Prop :=
  itCall a = itCall b /\ itTotal a = itTotal b /\ itBlockSize a = itBlockSize b /\ itBlockLast a = itBlockLast b.

Definition b2n (b : bool) : nat := if b then 1 else 0.

(** Decide permutations of naturals from permutation hypotheses by counting. *)
Ltac perm_nat :=
  repeat match goal with
  | H : Permutation ?l ?r |- _ =>
      let H' := fresh in
      assert (H' := proj1 (Permutation_count_occ Nat.eq_dec l r) H); clear H
  end;
  apply (Permutation_count_occ Nat.eq_dec); let x := fresh "x" in intros x;
  repeat match goal with
  | H : forall y, count_occ Nat.eq_dec ?l y = _ |- _ => specialize (H x); rewrite ?count_occ_app in H
  end; rewrite ?count_occ_app in *; cbn [Nat.add] in *; lia.

Lemma ran_in_app (wi : nat) (new : list nat) (rn : list (nat * nat)) (k : nat) :
  map snd (filter (fun e => fst e =? k) (map (fun b => (wi, b)) new ++ rn)) =
  (if wi =? k then new else []) ++ map snd (filter (fun e => fst e =? k) rn).
Proof.
  rewrite filter_app, map_app. f_equal.
  induction new as [|b new IH]; simpl; [now destruct (wi =? k)|].
  destruct (wi =? k); simpl; [now rewrite IH | exact IH].
Qed.

Lemma filter_none_ran rn wi : (forall k b, In (k, b) rn -> 1 <= k <= wi) ->
  map snd (filter (fun e : nat * nat => fst e =? S wi) rn) = [].
Proof.
  intros H. induction rn as [|[k b] rn IH]; simpl; auto.
  destruct (Nat.eqb_spec k (S wi)) as [->|E].
  - specialize (H (S wi) b (or_introl eq_refl)); lia.
  - apply IH. intros k' b' Hi; apply (H k' b'); right; exact Hi.
Qed.

(** Any step of worker [w] that leaves indices, main and calls alone. *)
Lemma inv_worker wi wic tw ta q intr m ws rn cl is w pc pc' tw' ta' q' it' new :
  Inv (mkState wi wic tw ta q intr m ws rn cl is) ->
  nth_error ws w = Some pc ->
  (ta' = ta + Z.of_nat (b2n (awake pc')) - Z.of_nat (b2n (awake pc)))%Z ->
  (q' = q /\ it' = q (slot_of (wi - 1)) \/
     live m = true /\ q' = set_item q (slot_of (wi - 1)) it') ->
  same_static it' (q (slot_of (wi - 1))) ->
  itBlockNext (q (slot_of (wi - 1))) <= itBlockNext it' ->
  itDone (q (slot_of (wi - 1))) <= itDone it' ->
  wok wi (live m) (itBlockLast it') pc' ->
  (new <> [] -> live m = true) ->
  (forall b, In b new -> b < itBlockLast it') ->
  (live m = true ->
     exists e, Permutation (infl_w pc' ++ new ++ e)
                 (infl_w pc ++ seq (itBlockNext (q (slot_of (wi - 1))))
                                 (itBlockNext it' - itBlockNext (q (slot_of (wi - 1))))) /\
       (is = false -> forall b, In b e -> itBlockLast it' <= b)) ->
  (live m = true ->
     itDone it' + b2n (fin_w pc') = itDone (q (slot_of (wi - 1))) + b2n (fin_w pc) + length new) ->
  Inv (mkState wi wic tw' ta' q' intr m (upd ws w pc') (map (fun b => (wi, b)) new ++ rn) cl is).
Proof.
  intros I Hw Hta Hq Hst Hbn Hdn Hok Hnl Hnew Hperm Hdone.
  destruct (nth_error_split _ _ Hw) as (wa & wb & Ews & El).
  assert (Eup : upd ws w pc' = wa ++ pc' :: wb) by (subst ws w; apply upd_mid).
  rewrite Eup. destruct Hst as (S1 & S2 & S3 & S4).
  destruct I as [Iaw Iidx Icalls Iwok Ipub Iitem Iperm Idone Iran Iranlt Ind Imrun Iintr Iwait Iend Iidle Ihist].
  unfold curit, cur, ran_in in *; simpl in *.
  set (cs := slot_of (wi - 1)) in *.
  assert (Ecur : q' cs = it').
  { destruct Hq as [[-> ->]|[_ ->]]; auto. unfold set_item. now rewrite Nat.eqb_refl. }
  constructor; unfold curit, cur, ran_in; simpl; fold cs; rewrite ?Ecur.
  - rewrite Hta, Iaw, Ews, !countb_app; simpl. unfold b2n. destruct (awake pc'), (awake pc); lia.
  - exact Iidx.
  - exact Icalls.
  - intros p Hp. apply in_app_iff in Hp as [Hp|[<-|Hp]].
    + rewrite S4. apply Iwok. rewrite Ews. apply in_app_iff; auto.
    + exact Hok.
    + rewrite S4. apply Iwok. rewrite Ews. apply in_app_iff; simpl; auto.
  - intros w0 Hm. destruct Hq as [[-> _]|[Hl _]]; [now apply (Ipub w0)|]. subst m; discriminate.
  - intros Hl. destruct (Iitem Hl) as (H1 & H2 & r & H3 & H4 & H5 & H6).
    split; [congruence|]. split; [lia|]. exists r; repeat split; congruence.
  - intros Hl. destruct (Iperm Hl) as (d & Hd & Hd2). destruct (Hperm Hl) as (e & He & He2).
    exists (e ++ d). split.
    + rewrite ran_in_app, Nat.eqb_refl.
      rewrite Ews in Hd. rewrite !flat_map_app in *. simpl in *.
      replace (itBlockNext it') with (itBlockNext (q cs) + (itBlockNext it' - itBlockNext (q cs))) by lia.
      rewrite seq_app.
      perm_nat.
    + intros Hi b Hb. apply in_app_iff in Hb as [Hb|Hb]; [now apply He2|]. rewrite S4. now apply Hd2.
  - intros Hl. specialize (Idone Hl). specialize (Hdone Hl).
    rewrite ran_in_app, Nat.eqb_refl, app_length.
    rewrite Ews, !countb_app in Idone. rewrite !countb_app. simpl in *. unfold b2n in *.
    destruct (fin_w pc'), (fin_w pc); lia.
  - intros k b Hi. apply in_app_iff in Hi as [Hi|Hi]; [|now apply (Iran k b)].
    apply in_map_iff in Hi as (b' & E & Hi). inversion E; subst.
    assert (new <> []) by (intros ->; contradiction).
    destruct (Iitem (Hnl H)) as (_ & H2 & _). lia.
  - intros Hl b Hi. rewrite ran_in_app, Nat.eqb_refl in Hi. apply in_app_iff in Hi as [Hi|Hi].
    + now apply Hnew.
    + rewrite S4. now apply (Iranlt Hl).
  - destruct new as [|b0 new0] eqn:En; [exact Ind|]. rewrite <- En in *.
    assert (Hl : live m = true) by (apply Hnl; rewrite En; discriminate).
    destruct (Iperm Hl) as (d & Hd & _). destruct (Hperm Hl) as (e & He & _).
    assert (Hnd : NoDup (infl_w pc' ++ new ++ e)).
    { rewrite He. apply NoDup_app_iff.
      assert (N := seq_NoDup (itBlockNext (q cs)) 0). rewrite <- Hd in N.
      rewrite Ews, flat_map_app in N. simpl in N.
      repeat split.
      - rewrite !NoDup_app_iff in N. apply N.
      - apply seq_NoDup.
      - intros x Hx Hs. apply in_seq in Hs.
        assert (Hin : In x (seq 0 (itBlockNext (q cs)))).
        { rewrite <- Hd, Ews, flat_map_app; simpl. rewrite !in_app_iff; auto 10. }
        apply in_seq in Hin. lia. }
    rewrite !NoDup_app_iff in Hnd. destruct Hnd as (_ & (Nn & _ & _) & _).
    apply NoDup_app_iff. repeat split; auto.
    + apply FinFun.Injective_map_NoDup; auto. intros x y E; now inversion E.
    + intros [k b] Hi Hr. apply in_map_iff in Hi as (b' & E & Hi). inversion E; subst k b'.
      assert (Hb : In b (map snd (filter (fun e0 => fst e0 =? wi) rn))).
      { apply in_map_iff. exists (wi, b); split; auto. apply filter_In; split; auto. simpl; apply Nat.eqb_refl. }
      assert (Hb2 : In b (infl_w pc ++ seq (itBlockNext (q cs)) (itBlockNext it' - itBlockNext (q cs)))).
      { rewrite <- He. rewrite !in_app_iff; auto 10. }
      assert (N := seq_NoDup (itBlockNext (q cs)) 0). rewrite <- Hd in N.
      rewrite Ews, flat_map_app in N. simpl in N. rewrite <- !app_assoc in N.
      apply in_app_iff in Hb2 as [Hb2|Hb2].
      * rewrite !NoDup_app_iff in N. destruct N as (_ & (_ & (_ & _ & N) & _) & _).
        apply (N b Hb2). rewrite !in_app_iff; auto 10.
      * assert (Hin : In b (seq 0 (itBlockNext (q cs)))).
        { rewrite <- Hd. rewrite !in_app_iff; auto 10. }
        apply in_seq in Hin. apply in_seq in Hb2. lia.
  - intros b Hb. rewrite S4. now apply Imrun.
  - exact Iintr.
  - intros H1 H2. specialize (Iwait H1 H2). lia.
  - intros H1 H2. specialize (Iend H1 H2). lia.
  - intros Hm H0 Hi. destruct (Iidle Hm H0 Hi) as (r & H1 & H2). exists r; split; auto.
    assert (new = []) as ->. { destruct new; auto. subst m. discriminate Hnl. discriminate. }
    simpl. exact H2.
  - intros k b Hi. apply in_app_iff in Hi as [Hi|Hi]; [|now apply (Ihist k b)].
    apply in_map_iff in Hi as (b' & E & Hi). inversion E; subst.
    assert (new <> []) by (intros ->; contradiction).
    destruct (Iitem (Hnl H)) as (_ & H2 & r & H3 & H4 & _). exists r; split; auto.
    rewrite <- H4, <- S4. now apply Hnew.
Qed.

Lemma inv_worker_step st w st' : Inv st -> worker_step st w = Some st' -> Inv st'.
Proof.
  intros I Hs. unfold worker_step in Hs.
  destruct (nth_error (workers st) w) as [pc|] eqn:Hw; [|discriminate].
  assert (Hok := i_wok _ I pc (nth_error_In _ _ Hw)).
  destruct st as [wi wic tw ta q intr m ws rn cl is]; simpl in *.
  unfold curit, cur in Hok; simpl in Hok.
  assert (Hss : same_static (q (slot_of (wi - 1))) (q (slot_of (wi - 1)))) by (repeat split).
  destruct pc; inversion Hs; subst; clear Hs.
  - (* WBorn *)
    eapply (inv_worker _ _ _ _ _ _ _ _ _ _ _ _ _ _ _ _ _ _ [] I Hw); simpl; try (left; now split); auto; try lia; try contradiction.
    intros _. exists []. rewrite Nat.sub_diag. simpl. split; [reflexivity|contradiction].
  - eapply (inv_worker _ _ _ _ _ _ _ _ _ _ _ _ _ _ _ _ _ _ [] I Hw); simpl; try (left; now split); auto; try lia; try contradiction.
    intros _. exists []. rewrite Nat.sub_diag. simpl. split; [reflexivity|contradiction].
  - (* WRead *)
    assert (Hidx := i_idx _ I). simpl in Hidx.
    eapply (inv_worker _ _ _ _ _ _ _ _ _ _ _ _ _ _ _ _ _ _ [] I Hw); simpl; try (left; now split); auto; try lia; try contradiction.
    + destruct (wic <? wi0); simpl; lia.
    + destruct (Nat.ltb_spec wic wi0); simpl; auto. destruct m; simpl in *; auto; lia.
    + intros _. exists []. rewrite Nat.sub_diag. simpl. destruct (wic <? wi0); split; try reflexivity; contradiction.
    + intros _. destruct (wic <? wi0); simpl; lia.
  - (* WGate *)
    eapply (inv_worker _ _ _ _ _ _ _ _ _ _ _ _ _ _ _ _ _ _ [] I Hw); simpl; try (left; now split); auto; try lia; try contradiction.
    + destruct (0 <=? tw - 1)%Z; simpl; lia.
    + destruct (0 <=? tw - 1)%Z; simpl; auto.
    + intros _. exists []. rewrite Nat.sub_diag. simpl. destruct (0 <=? tw - 1)%Z; split; try reflexivity; contradiction.
    + intros _. destruct (0 <=? tw - 1)%Z; simpl; lia.
  - (* WItem *)
    eapply (inv_worker _ _ _ _ _ _ _ _ _ _ _ _ _ _ _ _ _ _ [] I Hw); simpl; try (left; now split); auto; try lia; try contradiction.
    intros _. exists []. rewrite Nat.sub_diag. simpl. split; [reflexivity|contradiction].
  - (* WDo *)
    simpl in Hok. destruct Hok as [Hl ->].
    eapply (inv_worker _ _ _ _ _ _ _ _ _ _ _ _ _ _ _ _ _ _ [] I Hw); simpl;
      try (right; split; [exact Hl|reflexivity]); auto; simpl; try lia; try contradiction.
    + intros _. exists []. split; [|contradiction].
      set (n := itBlockNext (q (slot_of (wi - 1)))).
      replace (match n with 0 => S n | S l => n - l end) with 1 by (destruct n; lia). reflexivity.
  - (* WGot *)
    simpl in Hok. destruct Hok as [Hl ->].
    eapply (inv_worker _ _ _ _ _ _ _ _ _ _ _ _ _ _ _ _ _ _ [] I Hw); simpl; try (left; now split); auto; try lia; try contradiction.
    + destruct (accepts _ _ _); simpl; try lia. destruct did; simpl; lia.
    + unfold accepts. destruct (Nat.ltb_spec b (itBlockLast (q (slot_of (wi - 1))))); simpl.
      * destruct intr; simpl; [destruct did; simpl; auto|auto].
      * destruct did; simpl; auto.
    + intros _. rewrite Nat.sub_diag; simpl. unfold accepts.
      assert (Hint := i_intr _ I); simpl in Hint.
      destruct (Nat.ltb_spec b (itBlockLast (q (slot_of (wi - 1))))) as [Hb|Hb]; destruct intr; cbn [andb negb].
      * exists [b]. destruct did; simpl; (split; [reflexivity|]);
        intros Hf; (rewrite Hint in Hf; [discriminate| |reflexivity]); intros ->; discriminate.
      * exists []. split; [reflexivity|contradiction].
      * exists [b]. destruct did; simpl; (split; [reflexivity|]); intros _ b' [<-|[]]; auto.
      * exists [b]. destruct did; simpl; (split; [reflexivity|]); intros _ b' [<-|[]]; auto.
    + intros _. destruct (accepts _ _ _); simpl; try lia. destruct did; simpl; lia.
  - (* WRun *)
    simpl in Hok. destruct Hok as (Hl & -> & Hb).
    destruct (i_item _ I Hl) as (Hc & _). unfold curit, cur in Hc; simpl in Hc. rewrite Hc.
    change ((wi, b) :: rn) with (map (fun b => (wi, b)) [b] ++ rn).
    eapply (inv_worker _ _ _ _ _ _ _ _ _ _ _ _ _ _ _ _ _ _ [b] I Hw); simpl; try (left; now split); auto; try lia.
    intros _. exists []. rewrite Nat.sub_diag. simpl. split; [reflexivity|contradiction].
  - (* WFin *)
    simpl in Hok. destruct Hok as [Hl ->].
    eapply (inv_worker _ _ _ _ _ _ _ _ _ _ _ _ _ _ _ _ _ _ [] I Hw); simpl;
      try (right; split; [exact Hl|reflexivity]); auto; simpl; try lia; try contradiction.
    intros _. exists []. rewrite Nat.sub_diag. simpl. split; [reflexivity|contradiction].
  - (* WSleep *)
    eapply (inv_worker _ _ _ _ _ _ _ _ _ _ _ _ _ _ _ _ _ _ [] I Hw); simpl; try (left; now split); auto; try lia; try contradiction.
    intros _. exists []. rewrite Nat.sub_diag. simpl. split; [reflexivity|contradiction].
  - (* WFutex *)
    eapply (inv_worker _ _ _ _ _ _ _ _ _ _ _ _ _ _ _ _ _ _ [] I Hw); simpl; try (left; now split); auto; try lia; try contradiction.
    intros _. exists []. rewrite Nat.sub_diag. simpl. split; [reflexivity|contradiction].
Qed.

(** Any step of the main thread inside a published call. *)
Lemma inv_main wi wic wic' tw tw' ta q intr m m' ws rn cl is q' it' new :
  Inv (mkState wi wic tw ta q intr m ws rn cl is) ->
  live m = true -> live m' = true ->
  wi = wic' + (match m' with MJoin => 0 | _ => 1 end) ->
  (q' = q /\ it' = q (slot_of (wi - 1)) \/ q' = set_item q (slot_of (wi - 1)) it') ->
  same_static it' (q (slot_of (wi - 1))) ->
  itBlockNext (q (slot_of (wi - 1))) <= itBlockNext it' ->
  itDone (q (slot_of (wi - 1))) <= itDone it' ->
  (forall b, In b new -> b < itBlockLast it') ->
  (exists e, Permutation (infl_m m' ++ new ++ e)
                 (infl_m m ++ seq (itBlockNext (q (slot_of (wi - 1))))
                                 (itBlockNext it' - itBlockNext (q (slot_of (wi - 1))))) /\
       (is = false -> forall b, In b e -> itBlockLast it' <= b)) ->
  itDone it' + fin_m m' = itDone (q (slot_of (wi - 1))) + fin_m m + length new ->
  (forall b, m' = MRun b -> b < itBlockLast it') ->
  ((m' = MWait \/ m' = MComplete \/ m' = MJoin) -> is = false -> itBlockLast it' <= itBlockNext it') ->
  ((m' = MComplete \/ m' = MJoin) -> is = false -> itBlockLast it' <= itDone it') ->
  Inv (mkState wi wic' tw' ta q' intr m' ws (map (fun b => (wi, b)) new ++ rn) cl is).
Proof.
  intros I Hl Hl' Hidx Hq Hst Hbn Hdn Hnew Hperm Hdone Hmr Hwt Hen.
  destruct Hst as (S1 & S2 & S3 & S4).
  destruct I as [Iaw Iidx Icalls Iwok Ipub Iitem Iperm Idone Iran Iranlt Ind Imrun Iintr Iwait Iend Iidle Ihist].
  unfold curit, cur, ran_in in *; simpl in *.
  set (cs := slot_of (wi - 1)) in *.
  assert (Ecur : q' cs = it').
  { destruct Hq as [[-> ->]| ->]; auto. unfold set_item. now rewrite Nat.eqb_refl. }
  destruct (Iitem Hl) as (C1 & C2 & r & C3 & C4 & C5 & C6).
  destruct (Iperm Hl) as (d & Hd & Hd2). destruct Hperm as (e & He & He2).
  constructor; unfold curit, cur, ran_in; simpl; fold cs; rewrite ?Ecur.
  - exact Iaw.
  - destruct m'; try discriminate; lia.
  - destruct m'; try discriminate; destruct m; try discriminate; lia.
  - intros p Hp. rewrite S4, Hl'. rewrite <- Hl. now apply Iwok.
  - intros w0 ->. discriminate.
  - intros _. split; [congruence|]. split; [lia|]. exists r; repeat split; congruence.
  - intros _. exists (e ++ d). split.
    + rewrite ran_in_app, Nat.eqb_refl.
      replace (itBlockNext it') with (itBlockNext (q cs) + (itBlockNext it' - itBlockNext (q cs))) by lia.
      rewrite seq_app. perm_nat.
    + intros Hi b Hb. apply in_app_iff in Hb as [Hb|Hb]; [now apply He2|]. rewrite S4. now apply Hd2.
  - intros _. specialize (Idone Hl). rewrite ran_in_app, Nat.eqb_refl, app_length. lia.
  - intros k b Hi. apply in_app_iff in Hi as [Hi|Hi]; [|now apply (Iran k b)].
    apply in_map_iff in Hi as (b' & E & Hi). inversion E; subst. lia.
  - intros _ b Hi. rewrite ran_in_app, Nat.eqb_refl in Hi. apply in_app_iff in Hi as [Hi|Hi].
    + now apply Hnew.
    + rewrite S4. now apply (Iranlt Hl).
  - assert (N := seq_NoDup (itBlockNext (q cs)) 0). rewrite <- Hd in N.
    assert (Hnd : NoDup (infl_m m' ++ new ++ e)).
    { rewrite He. apply NoDup_app_iff.
      repeat split.
      - rewrite !NoDup_app_iff in N. apply N.
      - apply seq_NoDup.
      - intros x Hx Hs. apply in_seq in Hs.
        assert (Hin : In x (seq 0 (itBlockNext (q cs)))).
        { rewrite <- Hd. rewrite !in_app_iff; auto 10. }
        apply in_seq in Hin. lia. }
    rewrite !NoDup_app_iff in Hnd. destruct Hnd as (_ & (Nn & _ & _) & _).
    apply NoDup_app_iff. repeat split; auto.
    + apply FinFun.Injective_map_NoDup; auto. intros x y E; now inversion E.
    + intros [k b] Hi Hr. apply in_map_iff in Hi as (b' & E & Hi). inversion E; subst k b'.
      assert (Hb : In b (map snd (filter (fun e0 => fst e0 =? wi) rn))).
      { apply in_map_iff. exists (wi, b); split; auto. apply filter_In; split; auto. simpl; apply Nat.eqb_refl. }
      assert (Hb2 : In b (infl_m m ++ seq (itBlockNext (q cs)) (itBlockNext it' - itBlockNext (q cs)))).
      { rewrite <- He. rewrite !in_app_iff; auto 10. }
      apply in_app_iff in Hb2 as [Hb2|Hb2].
      * rewrite !NoDup_app_iff in N. destruct N as (_ & _ & N).
        apply (N b Hb2). rewrite !in_app_iff; auto 10.
      * assert (Hin : In b (seq 0 (itBlockNext (q cs)))).
        { rewrite <- Hd. rewrite !in_app_iff; auto 10. }
        apply in_seq in Hin. apply in_seq in Hb2. lia.
  - exact Hmr.
  - intros _. apply Iintr. intros ->; discriminate.
  - exact Hwt.
  - exact Hen.
  - intros ->; discriminate.
  - intros k b Hi. apply in_app_iff in Hi as [Hi|Hi]; [|now apply (Ihist k b)].
    apply in_map_iff in Hi as (b' & E & Hi). inversion E; subst. exists r; split; auto.
    rewrite <- C4, <- S4. now apply Hnew.
Qed.

Lemma seq_minus n m : seq n (m - m) = [].
Proof. now rewrite Nat.sub_diag. Qed.

Lemma no_awake_no_inflight ws : countb awake ws = 0 ->
  flat_map infl_w ws = [] /\ countb fin_w ws = 0 /\ forall pc, In pc ws -> awake pc = false.
Proof.
  induction ws as [|pc ws IH]; simpl; intros H.
  - repeat split; auto. intros pc [].
  - destruct (awake pc) eqn:E; [lia|]. destruct (IH ltac:(lia)) as (H1 & H2 & H3).
    rewrite H1, H2. repeat split.
    + destruct pc; try discriminate; auto.
    + destruct pc; try discriminate; auto.
    + intros p [<-|Hp]; auto.
Qed.

Lemma inv_main_step st st' : Inv st -> main_step st = Some st' -> Inv st'.
Proof.
  intros I Hs. unfold main_step in Hs.
  assert (Hidx := i_idx _ I). assert (Hmr := i_mrun _ I). assert (Hwt := i_wait _ I). assert (Hen := i_end _ I).
  assert (Hint := i_intr _ I). assert (Hit := i_item _ I). assert (Hpm := i_perm _ I). assert (Hdn := i_done _ I).
  assert (Hrl := i_ranlt _ I). assert (Haw := i_awake _ I). assert (Hpub := i_pub _ I).
  destruct st as [wi wic tw ta q intr m ws rn cl is]. unfold curit, cur in *; simpl in *.
  assert (Hss : same_static (q (slot_of (wi - 1))) (q (slot_of (wi - 1)))) by (repeat split).
  destruct m; inversion Hs; subst st'; clear Hs.
  - (* MPub *)
    destruct (Hpub w eq_refl) as (r & Hr & Hq).
    assert (Iran := i_ran _ I). assert (Iwok := i_wok _ I). assert (Icalls := i_calls _ I).
    assert (Ind := i_nodup _ I). assert (Ihist := i_hist _ I). simpl in *.
    constructor; unfold curit, cur, ran_in; simpl; rewrite ?Nat.sub_0_r; try discriminate; try lia; auto.
    + intros pc Hp. specialize (Iwok pc Hp). destruct pc; simpl in *; try tauto; try lia; destruct Iwok; discriminate.
    + intros _. rewrite Hq. simpl. split; auto. split; [lia|]. exists r; auto.
    + intros _. exists []. rewrite Hq, filter_none_ran by exact Iran. simpl. split; [|contradiction].
      assert (flat_map infl_w ws = []) as ->; [|reflexivity].
      { clear -Iwok. induction ws as [|pc ws IH]; simpl; auto. rewrite IH by (intros; apply Iwok; now right).
        specialize (Iwok pc (or_introl eq_refl)). destruct pc; auto; simpl in Iwok; destruct Iwok; discriminate. }
    + intros _. rewrite Hq, filter_none_ran by exact Iran. simpl.
      { clear -Iwok. induction ws as [|pc ws IH]; simpl; auto. rewrite IH by (intros; apply Iwok; now right).
        specialize (Iwok pc (or_introl eq_refl)). destruct pc; auto; simpl in Iwok; destruct Iwok; discriminate. }
    + intros k b Hi. specialize (Iran k b Hi). lia.
    + intros _ b. rewrite filter_none_ran by exact Iran. contradiction.
    + intros _. now apply Hint.
    + intros [H|[H|H]]; discriminate.
    + intros [H|H]; discriminate.
  - (* MWake *)
    apply (inv_main _ _ _ _ _ _ _ _ _ _ _ _ _ _ _ (q (slot_of (wi - 1))) [] I); simpl; auto; try lia; try discriminate; try contradiction.
    + exists []. rewrite seq_minus. split; [reflexivity|contradiction].
    + intros [H|[H|H]]; discriminate.
    + intros [H|H]; discriminate.
  - (* MDo *)
    apply (inv_main _ _ _ _ _ _ _ _ _ _ _ _ _ _ _ (take_block (q (slot_of (wi - 1)))) [] I); simpl; auto; try lia; try discriminate; try contradiction.
    + exists []. split; [|contradiction]. set (n := itBlockNext (q (slot_of (wi - 1)))).
      replace (match n with 0 => S n | S l => n - l end) with 1 by (destruct n; lia). reflexivity.
    + intros [H|[H|H]]; discriminate.
    + intros [H|H]; discriminate.
  - (* MGot *)
    unfold accepts. destruct (Nat.ltb_spec b (itBlockLast (q (slot_of (wi - 1))))) as [Hb|Hb]; destruct intr; cbn [andb negb].
    1, 3, 4:
    apply (inv_main _ _ _ _ _ _ _ _ _ _ _ _ _ _ _ (q (slot_of (wi - 1))) [] I); simpl; auto; try lia; try discriminate; try contradiction.
    + exists [b]. rewrite seq_minus. split; [reflexivity|]. intros Hf. rewrite Hint in Hf; auto; discriminate.
    + intros _ Hf. rewrite Hint in Hf; auto; discriminate.
    + intros [H|H]; discriminate.
    + exists [b]. rewrite seq_minus. split; [reflexivity|]. intros _ b' [<-|[]]; auto.
    + intros _ Hf. rewrite Hint in Hf; auto; discriminate.
    + intros [H|H]; discriminate.
    + exists [b]. rewrite seq_minus. split; [reflexivity|]. intros _ b' [<-|[]]; auto.
    + intros _ Hf. destruct (Hpm eq_refl) as (d & Hd & _).
      assert (Hin : In b (seq 0 (itBlockNext (q (slot_of (wi - 1)))))) by (rewrite <- Hd; left; auto).
      apply in_seq in Hin. lia.
    + intros [H|H]; discriminate.
    + apply (inv_main _ _ _ _ _ _ _ _ _ _ _ _ _ _ _ (q (slot_of (wi - 1))) [] I); simpl; auto; try lia; try discriminate; try contradiction.
      * exists []. rewrite seq_minus. split; [reflexivity|contradiction].
      * intros b' E; inversion E; subst; auto.
      * intros [H|[H|H]]; discriminate.
      * intros [H|H]; discriminate.
  - (* MRun *)
    destruct (Hit eq_refl) as (Hc & _). rewrite Hc.
    change ((wi, b) :: rn) with (map (fun b => (wi, b)) [b] ++ rn).
    apply (inv_main _ _ _ _ _ _ _ _ _ _ _ _ _ _ _ (q (slot_of (wi - 1))) [b] I); simpl; auto; try lia; try discriminate; try contradiction.
    + intros b' [<-|[]]; auto.
    + exists []. rewrite seq_minus. split; [reflexivity|contradiction].
    + intros [H|[H|H]]; discriminate.
    + intros [H|H]; discriminate.
  - (* MFin *)
    apply (inv_main _ _ _ _ _ _ _ _ _ _ _ _ _ _ _ (complete_block (q (slot_of (wi - 1)))) [] I); simpl; auto; try lia; try discriminate; try contradiction.
    + exists []. rewrite seq_minus. split; [reflexivity|contradiction].
    + intros [H|[H|H]]; discriminate.
    + intros [H|H]; discriminate.
  - (* MWait *)
    destruct (Nat.ltb_spec (itDone (q (slot_of (wi - 1)))) (itBlockLast (q (slot_of (wi - 1))))) as [Hb|Hb]; destruct intr; cbn [andb negb].
    all: apply (inv_main _ _ _ _ _ _ _ _ _ _ _ _ _ _ _ (q (slot_of (wi - 1))) [] I); simpl; auto; try lia; try discriminate; try contradiction.
    all: try (exists []; rewrite seq_minus; split; [reflexivity|contradiction]).
    intros _ Hf. rewrite Hint in Hf; auto; discriminate.
  - (* MComplete *)
    apply (inv_main _ _ _ _ _ _ _ _ _ _ _ _ _ _ _ (q (slot_of (wi - 1))) [] I); simpl; auto; try lia; try discriminate; try contradiction.
    exists []; rewrite seq_minus; split; [reflexivity|contradiction].
  - (* MJoin *)
    destruct (Z.eqb_spec ta 0) as [E|E].
    + assert (Hz : countb awake ws = 0) by lia.
      destruct (no_awake_no_inflight _ Hz) as (F1 & F2 & F3).
      assert (Iran := i_ran _ I). assert (Iwok := i_wok _ I). assert (Icalls := i_calls _ I).
      assert (Ind := i_nodup _ I). assert (Ihist := i_hist _ I). simpl in *.
      destruct (Hit eq_refl) as (C1 & C2 & r & C3 & C4 & _).
      constructor; unfold curit, cur, ran_in; simpl; rewrite ?Nat.sub_0_r; try discriminate; try lia; auto; try congruence; try (intros HH; now contradiction HH).
      * intros pc Hp. specialize (F3 pc Hp). destruct pc; simpl; auto; discriminate.
      * intros _ _ Hf. exists r; split; auto. intros b.
        specialize (Hen (or_intror eq_refl) Hf). specialize (Hdn eq_refl).
        destruct (Hpm eq_refl) as (d & Hd & Hd2). rewrite F1 in Hd. simpl in Hd.
        rewrite F2 in Hdn. unfold ran_in in *; simpl in *.
        split; [intros Hb; rewrite <- C4; now apply Hrl|]. intros Hb. rewrite <- C4 in Hb.
        assert (Hw2 := Hwt (or_intror (or_intror eq_refl)) Hf).
        assert (Hin : In b (seq 0 (itBlockNext (q (slot_of (wi - 1)))))) by (apply in_seq; lia).
        rewrite <- Hd in Hin. apply in_app_iff in Hin as [Hin|Hin]; auto.
        apply (Hd2 Hf) in Hin. lia.
    + apply (inv_main _ _ _ _ _ _ _ _ _ _ _ _ _ _ _ (q (slot_of (wi - 1))) [] I); simpl; auto; try lia; try discriminate; try contradiction.
      exists []; rewrite seq_minus; split; [reflexivity|contradiction].
Qed.

Lemma inv_step st l st' : Inv st -> step st l = Some st' -> Inv st'.
Proof.
  intros I Hs. destruct l as [r| |w| |]; simpl in Hs.
  - destruct st as [wi wic tw ta q intr m ws rn cl is]; simpl in *.
    destruct m; try discriminate. inversion Hs; subst; clear Hs.
    destruct I as [Iaw Iidx Icalls Iwok Ipub Iitem Iperm Idone Iran Iranlt Ind Imrun Iintr Iwait Iend Iidle Ihist].
    unfold curit, cur, ran_in in *; simpl in *.
    constructor; unfold curit, cur, ran_in; simpl; try discriminate; auto; try congruence.
    + rewrite app_length; simpl; lia.
    + intros pc Hp. specialize (Iwok pc Hp). destruct pc; simpl in *; auto.
      destruct Iwok as [H _]; discriminate.
    + intros w0 _. exists r. split.
      * rewrite nth_error_app2 by lia. replace (wi - length cl) with 0 by lia. reflexivity.
      * unfold set_item. now rewrite Nat.eqb_refl.
    + intros [H|[H|H]]; discriminate.
    + intros [H|H]; discriminate.
    + intros k b Hi. destruct (Ihist k b Hi) as (r' & H1 & H2). exists r'; split; auto.
      rewrite nth_error_app1; auto. now apply nth_error_Some_lt in H1.
  - now apply inv_main_step with st.
  - now apply inv_worker_step with st w.
  - inversion Hs; subst; clear Hs.
    destruct I as [Iaw Iidx Icalls Iwok Ipub Iitem Iperm Idone Iran Iranlt Ind Imrun Iintr Iwait Iend Iidle Ihist].
    constructor; unfold curit, cur, ran_in in *; simpl in *; auto; try discriminate.
    intros Hl. destruct (Iperm Hl) as (d & Hd & _). exists d; split; auto; discriminate.
  - destruct (main st) eqn:Em; try discriminate. inversion Hs; subst; clear Hs.
    destruct I as [Iaw Iidx Icalls Iwok Ipub Iitem Iperm Idone Iran Iranlt Ind Imrun Iintr Iwait Iend Iidle Ihist].
    rewrite Em in *.
    constructor; unfold curit, cur, ran_in in *; simpl in *; auto; try discriminate.
Qed.

Lemma inv_exec ls st st' : Inv st -> exec st ls = Some st' -> Inv st'.
Proof.
  revert st; induction ls as [|l ls IH]; simpl; intros st I H.
  - now inversion H; subst.
  - destruct (step st l) as [st1|] eqn:E; [|discriminate]. apply (IH st1); auto. now apply inv_step with st l.
Qed.

Lemma inv_reachable n st : reachable n st -> Inv st.
Proof. intros (q & ls & H). eapply inv_exec; [apply inv_init|exact H]. Qed.

(** ** Consequences *)

Lemma no_worker_inside n st pc : reachable n st -> main st = MIdle -> In pc (workers st) -> ~ inside_callback pc.
Proof.
  intros R Hm Hp. apply inv_reachable in R. assert (H := i_wok _ R pc Hp). rewrite Hm in H.
  destruct pc; simpl in *; auto; destruct H; discriminate.
Qed.

Lemma inside_is_current n st pc : reachable n st -> In pc (workers st) -> inside_callback pc ->
  exists s, (match pc with WDo _ s' _ | WGot _ s' _ _ | WRun _ s' _ | WFin _ s' => s' = s | _ => False end) /\
   itCall (queue st s) = length (calls st) /\
   exists r, nth_error (calls st) (length (calls st) - 1) = Some r /\
     itTotal (queue st s) = rqLen r /\ itBlockSize (queue st s) = rqBlockSize r /\
     itBlockLast (queue st s) = block_last r.
Proof.
  intros R Hp Hi. apply inv_reachable in R. assert (H := i_wok _ R pc Hp).
  assert (Hl : live (main st) = true /\
     match pc with WDo _ s' _ | WGot _ s' _ _ | WRun _ s' _ | WFin _ s' => s' = cur st | _ => False end).
  { destruct pc; simpl in *; try contradiction; destruct H as [H1 H2]; split; auto; tauto. }
  destruct Hl as [Hl Hs]. exists (cur st). split; [exact Hs|].
  destruct (i_item _ R Hl) as (H1 & H2 & r & H3 & H4 & H5 & H6).
  assert (Hc : length (calls st) = WorkIndex st).
  { rewrite (i_calls _ R). destruct (main st); simpl in *; try discriminate; lia. }
  rewrite Hc. split; auto. exists r; repeat split; auto.
Qed.

Lemma each_block_once n st : reachable n st ->
  NoDup (ran st) /\
  forall k b, In (k, b) (ran st) -> exists r, nth_error (calls st) (k - 1) = Some r /\ b < block_last r.
Proof. intros R; apply inv_reachable in R; split; [apply (i_nodup _ R) | apply (i_hist _ R)]. Qed.

Lemma all_blocks_at_return n st r : reachable n st -> main st = MIdle ->
  intr_seen st = false -> nth_error (calls st) (length (calls st) - 1) = Some r ->
  Permutation (ran_in st (length (calls st))) (seq 0 (block_last r)).
Proof.
  intros R Hm Hi Hr. apply inv_reachable in R.
  assert (Hc : length (calls st) = WorkIndex st) by (rewrite (i_calls _ R), Hm; lia).
  assert (H0 : 0 < WorkIndex st).
  { rewrite <- Hc. destruct (calls st); [discriminate|simpl; lia]. }
  destruct (i_idle _ R Hm H0 Hi) as (r' & H1 & H2). rewrite Hc in *.
  assert (r' = r) by congruence; subst r'.
  apply NoDup_Permutation.
  - unfold ran_in. assert (N := i_nodup _ R). clear -N.
    induction (ran st) as [|[k b] l IH]; simpl; [constructor|].
    inversion N as [|? ? Hn Hd]; subst. destruct (Nat.eqb_spec k (WorkIndex st)) as [->|E]; simpl; auto.
    constructor; auto. intros Hin. apply in_map_iff in Hin as ([k' b'] & E & Hin).
    apply filter_In in Hin as [Hin E2]. simpl in *. apply Nat.eqb_eq in E2. subst. contradiction.
  - apply seq_NoDup.
  - intros b. rewrite H2, in_seq. lia.
Qed.

(** ** A call can always be driven to its return *)

Local Opaque slot_of.
Definition Inv2 (st : state) : Prop := main st <> MIdle -> intr_seen st = interrupted st.

Lemma inv2_step st l st' : Inv2 st -> step st l = Some st' -> Inv2 st'.
Proof.
  unfold Inv2. intros I H. destruct l as [r| |w| |]; simpl in H.
  - destruct (main st); inversion H; subst; simpl; auto.
  - unfold main_step in H. destruct (main st) eqn:E; inversion H; subst; simpl in *; intros Hm; apply I; congruence.
  - unfold worker_step in H. destruct (nth_error (workers st) w) as [pc|]; [|discriminate].
    destruct pc; inversion H; subst; simpl in *; auto.
  - inversion H; subst; simpl; auto.
  - destruct (main st) eqn:E; inversion H; subst; simpl; intros Hm; congruence.
Qed.

Lemma inv2_exec ls st st' : Inv2 st -> exec st ls = Some st' -> Inv2 st'.
Proof.
  revert st; induction ls as [|l ls IH]; simpl; intros st I H.
  - now inversion H; subst.
  - destruct (step st l) as [st1|] eqn:E; [|discriminate]. apply (IH st1); auto. now apply inv2_step with st l.
Qed.

Lemma exec_app st ls1 ls2 st1 : exec st ls1 = Some st1 -> exec st (ls1 ++ ls2) = exec st1 ls2.
Proof.
  revert st; induction ls1 as [|l ls1 IH]; simpl; intros st H.
  - now inversion H; subst.
  - destruct (step st l) as [st2|]; [now apply IH|discriminate].
Qed.

Definition rem (st : state) : nat := itBlockLast (curit st) - itBlockNext (curit st).
Definition wrank (st : state) (pc : wpc) : nat :=
  match pc with
  | WBorn | WFutex _ => 0
  | WSleep _ => 1
  | WGot _ _ b did => if b <? itBlockLast (curit st) then 13 else if did then 9 else 2
  | WDo _ _ did => if did then 10 else 3
  | WItem _ => 5 | WGate _ => 6 | WRead _ => 7 | WTop => 8
  | WRun _ _ _ => 12 | WFin _ _ => 11
  end.

Definition worker_label (l : label) : Prop := match l with LWorker _ => True | _ => False end.

Lemma drive_worker k : forall st w pc, Inv st -> nth_error (workers st) w = Some pc ->
  rem st * 20 + wrank st pc < k ->
  exists ls st', Forall worker_label ls /\ exec st ls = Some st' /\ main st' = main st /\
    exists pc', awake pc' = false /\ workers st' = upd (workers st) w pc'.
Proof.
  induction k as [|k IH]; intros st w pc I Hw Hk; [lia|].
  destruct (awake pc) eqn:Eaw.
  2:{ exists [], st. repeat split; auto. exists pc; split; auto. symmetry; now apply upd_same. }
  assert (Hlt : w < length (workers st)) by now apply nth_error_Some_lt in Hw.
  assert (Hok := i_wok _ I pc (nth_error_In _ _ Hw)).
  assert (Hstep : exists st1 pc1, worker_step st w = Some st1 /\ main st1 = main st /\
            workers st1 = upd (workers st) w pc1 /\ rem st1 * 20 + wrank st1 pc1 < rem st * 20 + wrank st pc).
  { unfold worker_step. rewrite Hw.
    destruct pc; try discriminate; (do 2 eexists); (split; [reflexivity|]); (split; [reflexivity|]); (split; [reflexivity|]);
      unfold rem, wrank, curit, cur in *; simpl in *.
    - lia.
    - destruct (WorkIndexCompleted st <? wi); lia.
    - destruct (0 <=? ThreadWakeup st - 1)%Z; lia.
    - lia.
    - destruct Hok as [_ ->]. unfold set_item. rewrite Nat.eqb_refl. simpl.
      set (it := queue st _) in *.
      destruct (Nat.ltb_spec (itBlockNext it) (itBlockLast it)); destruct did; lia.
    - destruct Hok as [_ ->]. unfold accepts.
      set (it := queue st _) in *.
      destruct (Nat.ltb_spec b (itBlockLast it)); destruct (interrupted st); destruct did; simpl; lia.
    - destruct Hok as (_ & -> & _). lia.
    - destruct Hok as [_ ->]. unfold set_item. rewrite Nat.eqb_refl. simpl. lia.
    - lia. }
  destruct Hstep as (st1 & pc1 & Hs & Hm & Hws & Hmeas).
  assert (I1 : Inv st1) by (eapply inv_worker_step; eauto).
  destruct (IH st1 w pc1 I1) as (ls & st' & HF & He & Hm' & pc' & Ha & Hws').
  { rewrite Hws. now apply nth_error_upd_eq. }
  { lia. }
  exists (LWorker w :: ls), st'. split; [constructor; simpl; auto|]. simpl. rewrite Hs. split; auto. split; [congruence|].
  exists pc'; split; auto. rewrite Hws', Hws. apply upd_upd.
Qed.

Lemma drive_all k : forall st, Inv st -> countb awake (workers st) = k ->
  exists ls st', Forall worker_label ls /\ exec st ls = Some st' /\ main st' = main st /\ countb awake (workers st') = 0.
Proof.
  induction k as [|k IH]; intros st I Hk.
  - exists [], st; repeat split; auto.
  - assert (Hex : exists w pc, nth_error (workers st) w = Some pc /\ awake pc = true).
    { clear -Hk. revert k Hk. induction (workers st) as [|pc ws IHw]; simpl; intros k Hk; [lia|].
      destruct (awake pc) eqn:E; [exists 0, pc; auto|].
      destruct (IHw k Hk) as (w & pc' & H1 & H2). exists (S w), pc'; auto. }
    destruct Hex as (w & pc & Hw & Ha).
    destruct (drive_worker _ st w pc I Hw (Nat.lt_succ_diag_r _)) as (ls & st1 & HF & He & Hm & pc' & Ha' & Hws).
    assert (I1 : Inv st1) by (eapply inv_exec; eauto).
    assert (Hc := countb_upd awake _ _ pc' _ Hw). rewrite Ha, Ha' in Hc.
    destruct (IH st1 I1) as (ls2 & st2 & HF2 & He2 & Hm2 & Hz).
    { rewrite Hws. lia. }
    exists (ls ++ ls2), st2. split; [apply Forall_app; auto|]. split; [|split; [congruence|auto]].
    rewrite (exec_app _ _ _ _ He). exact He2.
Qed.

Definition mrank (st : state) : nat :=
  match main st with
  | MIdle => 0 | MJoin => 1 | MComplete => 2 | MWait => 3
  | MDo => 5 | MGot b => if b <? itBlockLast (curit st) then 8 else 4
  | MRun _ => 7 | MFin => 6 | MWake _ => 9 | MPub _ => 10
  end.

Lemma done_when_asleep st : Inv st -> Inv2 st -> countb awake (workers st) = 0 -> main st = MWait ->
  (itDone (curit st) <? itBlockLast (curit st)) && negb (interrupted st) = false.
Proof.
  intros I I2 Hz Hm. destruct (interrupted st) eqn:Ei; [now rewrite andb_false_r|].
  assert (His : intr_seen st = false) by (rewrite I2; congruence).
  simpl. rewrite andb_true_r. apply Nat.ltb_ge.
  destruct (no_awake_no_inflight _ Hz) as (F1 & F2 & _).
  assert (Hl : live (main st) = true) by now rewrite Hm.
  destruct (i_perm _ I Hl) as (d & Hd & Hd2). assert (Hdn := i_done _ I Hl).
  rewrite Hm, F1 in Hd. rewrite Hm, F2 in Hdn. simpl in *.
  assert (Hw := i_wait _ I (or_introl Hm) His).
  assert (Hlen : itBlockLast (curit st) <= length (ran_in st (WorkIndex st))); [|lia].
  rewrite <- (seq_length (itBlockLast (curit st)) 0) at 1.
  apply NoDup_incl_length; [apply seq_NoDup|].
  intros b Hb. apply in_seq in Hb.
  assert (Hin : In b (seq 0 (itBlockNext (curit st)))) by (apply in_seq; lia).
  rewrite <- Hd in Hin. apply in_app_iff in Hin as [Hin|Hin]; auto.
  apply (Hd2 His) in Hin. lia.
Qed.

Lemma drive_main k : forall st, Inv st -> Inv2 st -> countb awake (workers st) = 0 ->
  (match main st with MPub _ => False | _ => True end) ->
  rem st * 20 + mrank st < k ->
  exists ls st', Forall thread_label ls /\ exec st ls = Some st' /\ main st' = MIdle.
Proof.
  induction k as [|k IH]; intros st I I2 Hz Hp Hk; [lia|].
  destruct (main st) eqn:Em; try contradiction.
  { exists [], st; repeat split; auto. }
  all: assert (Hta := i_awake _ I); rewrite Hz in Hta.
  all: assert (Hstep : exists st1, main_step st = Some st1 /\ workers st1 = workers st /\
            rem st1 * 20 + mrank st1 < rem st * 20 + mrank st /\ match main st1 with MPub _ => False | _ => True end);
    [ unfold main_step; rewrite Em; eexists; (split; [reflexivity|]); (split; [reflexivity|]);
      unfold rem, mrank, curit, cur; simpl; rewrite ?Em; unfold set_item; rewrite ?Nat.eqb_refl; simpl;
      try (split; [lia|exact Logic.I])
    | destruct Hstep as (st1 & Hs & Hws & Hmeas & Hp1);
      (destruct (IH st1) as (ls & st' & HF & He & Hm');
      [now apply inv_main_step with st | now apply (inv2_step st LMain) | now rewrite Hws | exact Hp1 | lia |
       exists (LMain :: ls), st'; split; [constructor; simpl; auto | split; [simpl; rewrite Hs; exact He | exact Hm']]]) ].
  - destruct (Nat.ltb_spec (itBlockNext (queue st (slot_of (WorkIndex st - 1)))) (itBlockLast (queue st (slot_of (WorkIndex st - 1))))); split; auto; lia.
  - unfold accepts. destruct (Nat.ltb_spec b (itBlockLast (queue st (slot_of (WorkIndex st - 1))))); destruct (interrupted st); simpl; split; auto; lia.
  - assert (Hd := done_when_asleep st I I2 Hz Em). unfold curit, cur in Hd. rewrite Hd. split; auto; lia.
  - rewrite Hta. simpl. split; auto; lia.
Qed.

Lemma can_finish n st : reachable n st ->
  exists ls st', Forall thread_label ls /\ exec st ls = Some st' /\ main st' = MIdle.
Proof.
  intros R. assert (I := inv_reachable _ _ R).
  assert (I2 : Inv2 st).
  { destruct R as (q & ls & He). eapply inv2_exec; [|exact He]. intros H; simpl in H; congruence. }
  destruct (drive_all _ st I eq_refl) as (ls1 & st1 & HF1 & He1 & Hm1 & Hz1).
  assert (I1 : Inv st1) by (eapply inv_exec; eauto). assert (I21 : Inv2 st1) by (eapply inv2_exec; eauto).
  assert (HF1' : Forall thread_label ls1).
  { eapply Forall_impl; [|exact HF1]. intros [| | | |]; simpl; auto. }
  assert (Hpub : exists ls st2, Forall thread_label ls /\ exec st1 ls = Some st2 /\ countb awake (workers st2) = 0 /\
            match main st2 with MPub _ => False | _ => True end).
  { destruct (main st1) eqn:Em; try (exists [], st1; split; [constructor|]; split; [reflexivity|]; split; [exact Hz1|rewrite Em; exact Logic.I]).
    all: exists [LMain]; eexists; (split; [repeat constructor|]); (split; [simpl; unfold main_step; rewrite Em; reflexivity|]); simpl; auto. }
  destruct Hpub as (ls2 & st2 & HF2 & He2 & Hz2 & Hp2).
  assert (I3 : Inv st2) by (eapply inv_exec; eauto). assert (I23 : Inv2 st2) by (eapply inv2_exec; eauto).
  destruct (drive_main _ st2 I3 I23 Hz2 Hp2 (Nat.lt_succ_diag_r _)) as (ls3 & st3 & HF3 & He3 & Hm3).
  exists (ls1 ++ ls2 ++ ls3), st3. split; [rewrite !Forall_app; auto|]. split; auto.
  rewrite (exec_app _ _ _ _ He1), (exec_app _ _ _ _ He2). exact He3.
Qed.

(** ** Element-wise operations *)

Lemma run_blocks_spec {A} (f : Z -> A) blks out i :
  run_blocks f blks out i =
    if existsb (fun b => (fst b <=? i) && (i <? fst b + snd b))%Z blks then f i else out i.
Proof.
  unfold run_blocks. revert out; induction blks as [|b blks IH]; intros out; simpl; auto.
  rewrite IH. unfold run_block. destruct (_ && _)%bool; simpl; auto.
  now destruct (existsb _ blks).
Qed.

Lemma elementwise {A} (f : Z -> A) call len w bs out i : (0 <= len)%Z ->
  Permutation bs (seq 0 (block_last (chunk_req len w))) ->
  run_blocks f (blocks_of call (chunk_req len w) bs) out i =
    if ((0 <=? i) && (i <? len))%Z then f i else out i.
Proof.
  intros Hl Hp. rewrite run_blocks_spec.
  assert (E : existsb (fun b => (fst b <=? i) && (i <? fst b + snd b))%Z (blocks_of call (chunk_req len w) bs) =
          ((0 <=? i) && (i <? len))%Z); [|now rewrite E].
  apply eq_true_iff_eq. rewrite existsb_exists. unfold blocks_of. split.
  - intros (blk & Hin & Hb). apply in_map_iff in Hin as (b & <- & Hin). simpl in Hb.
    assert (Hbl : b < block_last (chunk_req len w)).
    { assert (Hi : In b (seq 0 (block_last (chunk_req len w)))) by (rewrite <- Hp; exact Hin).
      apply in_seq in Hi; lia. }
    destruct (block_len_bounds call len w b Hl Hbl) as [H1 H2].
    rewrite andb_true_iff in Hb. rewrite H2 in Hb. unfold block_start in *.
    change (itBlockSize (fill call (chunk_req len w))) with WORK_ITEM_CHUNK in *. unfold WORK_ITEM_CHUNK in *. lia.
  - intros Hi. apply andb_true_iff in Hi as [Ha Hb].
    destruct (chunk_cover call len w i ltac:(lia)) as (b & Hbl & Hr).
    eexists; split; [apply in_map_iff; exists b; split; [reflexivity|]|].
    + rewrite Hp. apply in_seq. change (itBlockLast _) with (block_last (chunk_req len w)) in Hbl. lia.
    + simpl. unfold in_range in Hr. lia.
Qed.

Lemma threaded_elementwise {A} n st (f : Z -> A) out len w i :
  reachable n st -> main st = MIdle -> intr_seen st = false -> (0 <= len)%Z ->
  nth_error (calls st) (length (calls st) - 1) = Some (chunk_req len w) ->
  run_blocks f (blocks_of (length (calls st)) (chunk_req len w) (rev (ran_in st (length (calls st))))) out i =
    if ((0 <=? i) && (i <? len))%Z then f i else out i.
Proof.
  intros R Hm Hi Hl Hr. apply elementwise; auto.
  rewrite <- (all_blocks_at_return n st _ R Hm Hi Hr). symmetry. apply Permutation_rev.
Qed.

Lemma chunks_partition call (len w : Z) : (0 <= len)%Z ->
  let it := fill call (mkReq len w WORK_ITEM_CHUNK true) in
  (forall b, b < itBlockLast it ->
     (0 <= block_start it b)%Z /\ (0 < block_len it false b)%Z /\
     (block_start it b + block_len it false b <= len)%Z) /\
  (forall i, (0 <= i < len)%Z ->
     exists! b, b < itBlockLast it /\ in_range (block_start it b) (block_len it false b) i) /\
  (forall b, itBlockLast it <= b -> block_len it false b = 0%Z).
Proof.
  intros Hl it. split; [|split].
  - intros b Hb. destruct (block_len_bounds call len w b Hl Hb) as [H1 H2].
    repeat split; auto.
    + unfold block_start. change (itBlockSize it) with WORK_ITEM_CHUNK. unfold WORK_ITEM_CHUNK. lia.
    + fold (chunk_req len w) in it. fold it in H2. rewrite H2. lia.
  - intros i Hi. destruct (chunk_cover call len w i Hi) as (b & H1 & H2).
    exists b. split; [auto|]. intros b' [H3 H4]. eapply chunk_unique; eauto.
  - intros b Hb. now apply block_len_none.
Qed.

Lemma other_block_sizes :
  exists len bs, (0 < bs)%Z /\
    let it := fill 1 (mkReq len 0 bs true) in
    exists b, b < itBlockLast it /\ (len < block_start it b + block_len it false b)%Z.
Proof.
  exists 49152%Z, 0x8000%Z. split; [reflexivity|]. exists 1. vm_compute. split; auto.
Qed.
