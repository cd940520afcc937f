(** The as-of merge of two sorted tables. *)
From Verif Require Import Num Base Mem MemLemmas Par HashModel HashTable HashSpec HashProofs HashMember HashGroup.
From Coq Require Import Sorting.Sorted.
Local Open Scope Z_scope.

Section Loop.
  Context {K V : Type} (keq : K -> K -> bool) (Hkeq : forall x y, keq x y = true <-> x = y) (H : K -> Z).
  Context (before eq : V -> V -> bool) (valid : V -> bool) (TO : time_order before eq valid).
  Context (exact : bool) (bad : Z) (key1 key2 : list K) (val1 val2 : list V) (size : Z).
  Context (Hsize : 0 <= size) (HH1 : forall x, In x key1 -> 0 <= H x < size) (HH2 : forall x, In x key2 -> 0 <= H x < size)
          (L1 : length val1 = length key1) (L2 : length val2 = length key2).
  Context (js0 : list Z) (Hjs0 : forall j, In j js0 -> 0 <= j < Z.of_nat (length key2)).

  Definition stop (v1 v2 : V) : bool := before v1 v2 || (negb exact && eq v1 v2).
  Definition elig (i j : Z) : Prop := exists k v1 v2, zrd key1 i = Some k /\ zrd key2 j = Some k /\
    zrd val1 i = Some v1 /\ zrd val2 j = Some v2 /\ valid v1 = true /\ valid v2 = true /\ stop v1 v2 = false.
  Definition row_ok (i r : Z) : Prop :=
    (exists l1 l2, js0 = l1 ++ r :: l2 /\ elig i r /\ forall q, In q l2 -> ~ elig i q) \/
    (r = bad /\ forall q, In q js0 -> ~ elig i q).

  Definition R1 (i i' : Z) : Prop := forall v v', zrd val1 i = Some v -> zrd val1 i' = Some v' -> valid v = true -> valid v' = true -> before v' v = false.
  Definition R2 (i i' : Z) : Prop := forall v v', zrd val2 i = Some v -> zrd val2 i' = Some v' -> valid v = true -> valid v' = true -> before v' v = false.

  Definition key (p : Z) : option K := zrd key2 p.
  Definition hk (o : option K) : Z := match o with Some x => H x | None => 0 end.
  Definition isvalid (q : Z) : Prop := exists v, zrd val2 q = Some v /\ valid v = true.

  Record ainv (t : list (option Z)) (dall : list Z) : Prop := {
    ai_len : Z.of_nat (length t) = size;
    ai_inv : tinv key hk t;
    ai_stored : forall p, In p (somes t) -> isvalid p /\ exists e1 e2, dall = e1 ++ p :: e2 /\ forall q, In q e2 -> isvalid q -> key q <> key p;
    ai_all : forall q, In q dall -> isvalid q -> exists p, In p (somes t) /\ key p = key q
  }.

  Definition al_small : Prop := ~ fewer_than size key2.

  Lemma zrd_ex {A} (l : list A) i : 0 <= i < Z.of_nat (length l) -> exists x, zrd l i = Some x /\ In x l.
  Proof.
    clear. intros Hi. destruct (nth_error_lt l (Z.to_nat i)) as (x & E); [lia|]. exists x. rewrite zrd_some by lia. split; auto.
    eapply nth_error_In; eauto.
  Qed.

  Lemma in_split_key t dall p : ainv t dall -> In p (somes t) -> incl dall js0 -> exists y, key p = Some y /\ In y key2.
  Proof.
    intros A Hp Hd. destruct (ai_stored _ _ A p Hp) as (_ & e1 & e2 & E & _).
    destruct (zrd_ex key2 p) as (y & Ey & Hy); [apply Hjs0, Hd; rewrite E; apply in_elt|]. eauto.
  Qed.

  Lemma same_key p p' : (exists y, key p = Some y /\ In y key2) -> (exists y, key p' = Some y /\ In y key2) -> key p' = key p \/ key p' <> key p.
  Proof.
    intros (y & -> & _) (y' & -> & _). destruct (keq y' y) eqn:E; [left; f_equal; now apply Hkeq|right].
    intros C. inversion C. assert (keq y' y = true) by (now apply Hkeq). congruence.
  Qed.

  Lemma al_probe t dall x : ainv t dall -> incl dall js0 -> 0 <= H x < size ->
    exists r, probe t (row_match keq key2 x) (H x) = Ret r /\ found_in key hk t (Some x) r.
  Proof.
    intros A Hd Hx. pose proof A as [L I S _]. apply (probe_inv key hk t (row_match keq key2 x) (Some x) I); [cbn; lia|].
    intros p Hp. destruct (in_split_key _ _ _ A Hp Hd) as (y & Ey & _). unfold row_match. unfold key in Ey |- *. rewrite Ey. cbn.
    exists (keq x y). split; auto. rewrite Hkeq. split; congruence.
  Qed.

  Lemma al_full t dall : ainv t dall -> incl dall js0 -> length (somes t) = length t -> al_small.
  Proof.
    intros A Hd F (U & HU & HL). pose proof A as [L I S _]. apply (not_full key hk t (map Some U) I); auto.
    - intros p Hp. destruct (in_split_key _ _ _ A Hp Hd) as (y & -> & Hy). apply in_map. auto.
    - rewrite map_length. lia.
  Qed.

  Lemma insert_ok t dall j : ainv t dall -> incl dall js0 -> In j js0 -> isvalid j ->
    okt al_small (fun t' => ainv t' (dall ++ [j])) (align_insert keq H key2 t j).
  Proof.
    intros A Hd Hj Vj. pose proof A as [L I S C]. unfold align_insert.
    destruct (zrd_ex key2 j (Hjs0 j Hj)) as (x & Ex & Hx). rewrite Ex. cbn [lift obind].
    destruct (al_probe t dall x A Hd (HH2 x Hx)) as (r & -> & F). cbn [obind].
    assert (Kj : key j = Some x) by exact Ex.
    inversion F as [s p Ho Hp Ek|s Es Nk Ti|Nk Fu]; subst r; cbn.
    - assert (N : NoDup (map key (somes t))) by apply I. split.
      + now rewrite store_length.
      + eapply tinv_replace; eauto. congruence.
      + intros q Hq. apply (in_somes_replace key t s p j q Ho N) in Hq as [-> |(Hq & Nq)].
        * split; auto. exists dall, []. split; [reflexivity|]. intros q' Hq'. destruct Hq'.
        * destruct (S q Hq) as (Vq & e1 & e2 & -> & Hlast). split; auto. exists e1, (e2 ++ [j]). split; [now rewrite <- app_assoc|].
          intros q' Hq' Vq'. apply in_app_or in Hq' as [Hq'|[<-|[]]]; [auto|]. congruence.
      + intros q Hq Vq. apply in_app_or in Hq as [Hq|[<-|[]]].
        * destruct (C q Hq Vq) as (p' & Hp' & Ep'). destruct (same_key p p' (ltac:(eapply in_split_key; eauto)) (ltac:(eapply in_split_key; eauto))) as [E|E].
          -- exists j. split; [apply (in_somes_replace key t s p j j Ho N); auto|]. congruence.
          -- exists p'. split; auto. apply (in_somes_replace key t s p j p' Ho N). auto.
        * exists j. split; auto. apply (in_somes_replace key t s p j j Ho N). auto.
    - split.
      + now rewrite store_length.
      + apply Ti. auto.
      + intros q Hq. apply in_somes_insert in Hq as [-> |Hq]; auto.
        * split; auto. exists dall, []. split; [reflexivity|]. intros q' Hq'. destruct Hq'.
        * destruct (S q Hq) as (Vq & e1 & e2 & -> & Hlast). split; auto. exists e1, (e2 ++ [j]). split; [now rewrite <- app_assoc|].
          intros q' Hq' Vq'. apply in_app_or in Hq' as [Hq'|[<-|[]]]; [auto|]. intros E. apply (Nk q Hq). congruence.
      + intros q Hq Vq. apply in_app_or in Hq as [Hq|[<-|[]]].
        * destruct (C q Hq Vq) as (p' & Hp' & Ep'). exists p'. split; auto. apply in_somes_insert; auto.
        * exists j. split; auto. apply in_somes_insert; auto.
    - eapply al_full; eauto.
  Qed.

  Lemma stop_later1 v v' v2 : valid v = true -> valid v' = true -> valid v2 = true ->
    stop v v2 = false -> before v' v = false -> stop v' v2 = false.
  Proof.
    intros Vv Vv' V2 S B. unfold stop in *. apply Bool.orb_false_iff in S as (S1 & S2).
    assert (B1 : before v' v2 = false).
    { destruct (before v' v2) eqn:E; auto. destruct (to_weak _ _ _ TO v' v v2) as [X|X]; auto; congruence. }
    rewrite B1. cbn. destruct exact; cbn in *; auto. destruct (eq v' v2) eqn:E; auto.
    apply (to_eq _ _ _ TO) in E as (_ & E); auto.
    destruct (before v2 v) eqn:B2.
    - destruct (to_weak _ _ _ TO v2 v' v) as [X|X]; auto; congruence.
    - assert (eq v v2 = true) by (apply (to_eq _ _ _ TO); auto). congruence.
  Qed.

  Lemma stop_later2 v v2 v2' : valid v = true -> valid v2 = true -> valid v2' = true ->
    stop v v2 = true -> before v2' v2 = false -> stop v v2' = true.
  Proof.
    intros Vv V2 V2' S B. unfold stop in *. apply Bool.orb_true_iff in S as [S|S].
    - destruct (to_weak _ _ _ TO v v2' v2) as [X|X]; auto; [rewrite X; auto|congruence].
    - apply Bool.andb_true_iff in S as (Ex & S). rewrite Ex. cbn. apply (to_eq _ _ _ TO) in S as (S1 & S2); auto.
      destruct (before v v2') eqn:E; auto. cbn. apply (to_eq _ _ _ TO); auto. split; auto.
      destruct (before v2' v) eqn:E2; auto. destruct (to_weak _ _ _ TO v2' v2 v) as [X|X]; auto; congruence.
  Qed.

  (** the rows inserted so far are not after the rows still to do *)
  Definition reached (is dall : list Z) : Prop := forall i q v v2, In i is -> In q dall -> zrd val1 i = Some v -> zrd val2 q = Some v2 ->
    valid v = true -> valid v2 = true -> stop v v2 = false.

  Lemma lookup_row t dall js i v : js0 = dall ++ js -> ainv t dall -> 0 <= i < Z.of_nat (length key1) ->
    zrd val1 i = Some v -> valid v = true -> reached [i] dall ->
    (forall q v2, In q js -> zrd val2 q = Some v2 -> valid v2 = true -> stop v v2 = true) ->
    okt al_small (row_ok i) (align_lookup keq H bad key1 key2 t i).
  Proof.
    intros Ej A Hi Ev Vv Re Rj. unfold align_lookup.
    assert (Hd : incl dall js0) by (rewrite Ej; intros q Hq; apply in_or_app; auto).
    destruct (zrd_ex key1 i Hi) as (x & Ex & Hx). rewrite Ex. cbn [lift obind].
    destruct (al_probe t dall x A Hd (HH1 x Hx)) as (r & -> & F). cbn [obind]. pose proof A as [L I S C].
    assert (NJ : forall q, In q js -> ~ elig i q).
    { intros q Hq (k & v1 & v2 & _ & _ & E1 & E2 & _ & V2 & St). rewrite Ev in E1. inversion E1; subst v1.
      rewrite (Rj q v2 Hq E2 V2) in St. discriminate. }
    inversion F as [s p Ho Hp Ek|s Es Nk Ti|Nk Fu]; subst r; cbn.
    - left. destruct (S p Hp) as ((v2 & E2 & V2) & e1 & e2 & Ed & Hlast). exists e1, (e2 ++ js).
      split; [rewrite Ej, Ed, <- app_assoc; reflexivity|]. split.
      + exists x, v, v2. repeat split; auto. apply (Re i p v v2); auto; [now left|]. rewrite Ed. apply in_elt.
      + intros q Hq Q. apply in_app_or in Hq as [Hq|Hq]; [|now apply (NJ q)].
        destruct Q as (k & v1 & v2' & E1 & E3 & _ & E4 & _ & V4 & _).
        apply (Hlast q Hq); [exists v2'; auto|]. unfold key at 1. rewrite E3, Ek. congruence.
    - right. split; auto. intros q Hq Q. rewrite Ej in Hq. apply in_app_or in Hq as [Hq|Hq]; [|now apply (NJ q)].
      destruct Q as (k & v1 & v2' & E1 & E3 & _ & E4 & _ & V4 & _).
      destruct (C q Hq) as (p & Hp & Ep); [exists v2'; auto|]. apply (Nk p Hp). rewrite Ep. unfold key. congruence.
    - eapply al_full; eauto.
  Qed.

  Definition rows_ok (is : list Z) (ws : list (Z * Z)) : Prop := map fst ws = is /\ forall i r, In (i, r) ws -> row_ok i r.

  Lemma rows_cons i r is ws : row_ok i r -> rows_ok is ws -> rows_ok (i :: is) ((i, r) :: ws).
  Proof.
    intros Hr (E & F). split; [cbn; congruence|]. intros i' r' [X|X]; [inversion X; now subst|auto].
  Qed.

  Lemma invalid_row i v : zrd val1 i = Some v -> valid v = false -> row_ok i bad.
  Proof. intros E Vv. right. split; auto. intros q _ (k & v1 & v2 & _ & _ & E1 & _ & V1 & _). congruence. Qed.

  Lemma reached_tl i is dall : reached (i :: is) dall -> reached is dall.
  Proof. intros R i' q v v2 Hi. apply R. now right. Qed.
  Lemma reached_hd i is dall : reached (i :: is) dall -> reached [i] dall.
  Proof. intros R i' q v v2 [<-|[]]. apply R. now left. Qed.

  Lemma rest_ok t is : ainv t js0 -> (forall i, In i is -> 0 <= i < Z.of_nat (length key1)) -> reached is js0 ->
    okt al_small (rows_ok is) (align_rest keq H valid bad key1 key2 val1 t is).
  Proof.
    intros A. induction is as [|i is IH]; intros Hi Re; cbn [align_rest]; [cbn; split; auto; intros ? ? []|].
    destruct (zrd_ex val1 i) as (v & Ev & _); [rewrite L1; apply Hi; now left|]. rewrite Ev. cbn [lift obind].
    eapply okt_bind with (Q := row_ok i).
    - destruct (valid v) eqn:Vv; [|cbn; eapply invalid_row; eauto].
      apply (lookup_row t js0 [] i v); [now rewrite app_nil_r|auto|apply Hi; now left|auto|auto|eapply reached_hd; eauto|intros q v2 []].
    - intros r Hr. eapply okt_bind; [apply IH; [intros; apply Hi; now right|eapply reached_tl; eauto]|].
      intros ws Hw. cbn. now apply rows_cons.
  Qed.

  Lemma loop_ok fuel : forall t dall is js, (length is + length js < fuel)%nat -> js0 = dall ++ js -> ainv t dall ->
    (forall i, In i is -> 0 <= i < Z.of_nat (length key1)) -> StronglySorted R1 is -> StronglySorted R2 js -> reached is dall ->
    okt al_small (rows_ok is) (align_loop keq H before eq valid fuel exact bad key1 key2 val1 val2 t is js).
  Proof.
    induction fuel as [|f IH]; intros t dall is js Lf Ej A Hi S1 S2 Re; [lia|]. cbn [align_loop].
    destruct is as [|i is]; [cbn; split; auto; intros ? ? []|].
    destruct js as [|j js].
    { rewrite app_nil_r in Ej. subst dall. now apply rest_ok. }
    cbn [length] in Lf.
    assert (Ri : 0 <= i < Z.of_nat (length key1)) by (apply Hi; now left).
    assert (Hi' : forall i, In i is -> 0 <= i < Z.of_nat (length key1)) by (intros; apply Hi; now right).
    assert (Rj : In j js0) by (rewrite Ej; apply in_elt).
    destruct (zrd_ex val1 i) as (v1 & Ev1 & _); [lia|]. rewrite Ev1. cbn [lift obind].
    inversion S1 as [|? ? S1' F1]; subst. inversion S2 as [|? ? S2' F2]; subst. rewrite Forall_forall in F1, F2.
    destruct (valid v1) eqn:V1; cbn [negb].
    - destruct (zrd_ex val2 j) as (v2 & Ev2 & _); [rewrite L2; now apply Hjs0|]. rewrite Ev2. cbn [lift obind].
      destruct (valid v2) eqn:V2; cbn [negb].
      + fold (stop v1 v2). destruct (stop v1 v2) eqn:St.
        * eapply okt_bind.
          -- eapply (lookup_row t dall (j :: js)); eauto; [eapply reached_hd; eauto|].
             intros q vq [<-|Hq] Eq Vq; [congruence|]. eapply (stop_later2 v1 v2 vq); eauto. apply (F2 q Hq v2 vq); auto.
          -- intros r Hr. eapply okt_bind; [apply (IH t dall is (j :: js)); auto; [cbn; lia|eapply reached_tl; eauto]|].
             intros ws Hw. cbn. now apply rows_cons.
        * eapply okt_bind; [apply (insert_ok t dall j)|]; auto.
          -- rewrite Ej. intros q Hq. apply in_or_app. auto.
          -- exists v2. auto.
          -- intros t' A'. apply (IH t' (dall ++ [j]) (i :: is) js); auto; [cbn; lia|now rewrite <- app_assoc|].
             intros i' q v v2' Hi0 Hq Ev Eq Vv Vq. apply in_app_or in Hq as [Hq|[<-|[]]]; [eapply Re; eauto|].
             assert (v2' = v2) by congruence. subst v2'. destruct Hi0 as [<-|Hi0]; [congruence|].
             apply (stop_later1 v1 v v2); auto. apply (F1 i' Hi0 v1 v); auto.
      + apply (IH t (dall ++ [j]) (i :: is) js); auto; [cbn; lia|now rewrite <- app_assoc| |].
        * destruct A as [L I S C]. split; auto.
          -- intros p Hp. destruct (S p Hp) as (Vp & e1 & e2 & -> & Hl). split; auto. exists e1, (e2 ++ [j]). split; [now rewrite <- app_assoc|].
             intros q Hq Vq. apply in_app_or in Hq as [Hq|[<-|[]]]; auto. destruct Vq as (v & E & Vv). congruence.
          -- intros q Hq Vq. apply in_app_or in Hq as [Hq|[<-|[]]]; auto. destruct Vq as (v & E & Vv). congruence.
        * intros i' q v v2' Hi0 Hq Ev Eq Vv Vq. apply in_app_or in Hq as [Hq|[<-|[]]]; [eapply Re; eauto|congruence].
    - eapply okt_bind; [apply (IH t dall is (j :: js)); auto; [cbn; lia|eapply reached_tl; eauto]|].
      intros ws Hw. cbn. apply rows_cons; auto. eapply invalid_row; eauto.
  Qed.
End Loop.

(** ** Both directions *)

Lemma time_order_flip {V} (lt eq : V -> V -> bool) valid : time_order lt eq valid -> time_order (fun x y => lt y x) eq valid.
Proof.
  intros [I T W E]. split; auto.
  - intros x y z Vx Vy Vz A B. eapply (T z y x); eauto.
  - intros x y z Vx Vy Vz A. destruct (W z y x); auto.
  - intros x y Vx Vy. rewrite E by auto. tauto.
Qed.

Lemma zseq_in n i : In i (zseq n) <-> 0 <= i < Z.of_nat n.
Proof.
  unfold zseq. rewrite in_map_iff. split.
  - intros (k & <- & Hk). apply in_seq in Hk. lia.
  - intros Hi. exists (Z.to_nat i). split; [lia|]. apply in_seq. lia.
Qed.

Lemma ss_zseq (R : Z -> Z -> Prop) n : (forall i j, (i < j)%nat -> R (Z.of_nat i) (Z.of_nat j)) -> StronglySorted R (zseq n).
Proof.
  intros HR. unfold zseq. generalize 0%nat. induction n as [|n IH]; intros s; cbn; constructor; auto.
  apply Forall_forall. intros x Hx. apply in_map_iff in Hx as (k & <- & Hk). apply in_seq in Hk. apply HR. lia.
Qed.

Lemma ss_app {A} (R : A -> A -> Prop) l1 l2 : StronglySorted R l1 -> StronglySorted R l2 -> (forall x y, In x l1 -> In y l2 -> R x y) ->
  StronglySorted R (l1 ++ l2).
Proof.
  induction l1 as [|a l1 IH]; cbn; intros S1 S2 C; auto. inversion S1 as [|? ? S F]; subst. constructor.
  - apply IH; auto.
  - apply Forall_forall. intros x Hx. rewrite Forall_forall in F. apply in_app_or in Hx as [Hx|Hx]; auto.
Qed.

Lemma ss_rev {A} (R : A -> A -> Prop) l : StronglySorted (fun x y => R y x) l -> StronglySorted R (rev l).
Proof.
  induction l as [|a l IH]; cbn; intros S; [constructor|]. inversion S as [|? ? S' F]; subst. rewrite Forall_forall in F.
  apply ss_app; auto; [repeat constructor|]. intros x y Hx [<-|[]]. apply F. now apply in_rev.
Qed.

Lemma ss_mid {A} (R : A -> A -> Prop) l1 x l2 q : StronglySorted R (l1 ++ x :: l2) -> In q l1 -> R q x.
Proof.
  induction l1 as [|a l1 IH]; cbn; intros S Hq; [destruct Hq|]. inversion S as [|? ? S' F]; subst. rewrite Forall_forall in F.
  destruct Hq as [<-|Hq]; [apply F, in_elt|auto].
Qed.

Definition dir (forward : bool) n : list Z := if forward then rev (zseq n) else zseq n.

Lemma dir_in fw n i : In i (dir fw n) <-> 0 <= i < Z.of_nat n.
Proof. unfold dir. destruct fw; [rewrite <- in_rev|]; apply zseq_in. Qed.

Lemma dir_before fw n l1 r l2 q : dir fw n = l1 ++ r :: l2 -> In q l1 -> if fw then r < q else q < r.
Proof.
  unfold dir. destruct fw; intros E Hq.
  - assert (S : StronglySorted (fun x y => y < x) (rev (zseq n))) by (apply ss_rev, ss_zseq; lia). rewrite E in S.
    apply (ss_mid _ _ _ _ q S Hq).
  - assert (S : StronglySorted Z.lt (zseq n)) by (apply ss_zseq; lia). rewrite E in S. apply (ss_mid _ _ _ _ q S Hq).
Qed.

Lemma dir_length fw n : length (dir fw n) = n.
Proof. unfold dir, zseq. destruct fw; rewrite ?rev_length, map_length, seq_length; auto. Qed.

Lemma dir_nodup fw n : NoDup (dir fw n).
Proof.
  assert (N : NoDup (zseq n)).
  { unfold zseq. apply FinFun.Injective_map_NoDup; [intros x y; lia|apply seq_NoDup]. }
  unfold dir. destruct fw; auto. now apply NoDup_rev.
Qed.

Section Both.
  Context {K V : Type} (keq : K -> K -> bool) (Hkeq : forall x y, keq x y = true <-> x = y) (H : Z -> K -> Z).
  Context (lt eq : V -> V -> bool) (valid : V -> bool) (TO : time_order lt eq valid).
  Context (forward exact : bool) (bad d : Z) (key1 key2 : list K) (val1 val2 : list V).
  Context (HH : forall size x, 0 < size -> 0 <= H size x < size) (L1 : length val1 = length key1) (L2 : length val2 = length key2)
          (Hn : Z.of_nat (length key2) < 68719476731).
  Context (S1 : time_sorted (fun x y => lt x y = true) (fun x => valid x = true) val1)
          (S2 : time_sorted (fun x y => lt x y = true) (fun x => valid x = true) val2).

  Definition before (x y : V) : bool := if forward then lt y x else lt x y.

  Lemma before_order : time_order before eq valid.
  Proof using TO. unfold before. destruct forward; [now apply time_order_flip|exact TO]. Qed.

  Lemma dir_sorted (vals : list V) n : time_sorted (fun x y => lt x y = true) (fun x => valid x = true) vals ->
    StronglySorted (fun i i' => forall v v', zrd vals i = Some v -> zrd vals i' = Some v' -> valid v = true -> valid v' = true -> before v' v = false) (dir forward n).
  Proof using.
    clear -valid. intros S. assert (X : forall i j, (i < j)%nat -> forall x y, zrd vals (Z.of_nat i) = Some x -> zrd vals (Z.of_nat j) = Some y ->
                valid x = true -> valid y = true -> lt y x = false).
    { intros i j L x y Ex Ey Vx Vy. rewrite zrd_some, Nat2Z.id in Ex, Ey by lia. destruct (lt y x) eqn:E; auto.
      exfalso. apply (S i j x y); auto. }
    unfold dir, before. destruct forward.
    - apply ss_rev, ss_zseq. intros i j L v v' E E' Vv Vv'. eapply X; eauto.
    - apply ss_zseq. intros i j L v v' E E' Vv Vv'. eapply X; eauto.
  Qed.

  Lemma elig_iff i j : elig before eq valid exact key1 key2 val1 val2 (Z.of_nat i) (Z.of_nat j) <->
    eligible (fun x y => lt x y = true) (fun x => valid x = true) exact key1 key2 val1 val2 forward i j.
  Proof using TO.
    clear -TO. assert (X : forall v1 v2, valid v1 = true -> valid v2 = true -> (stop before eq exact v1 v2 = false <->
       (if forward then (if exact then ~ lt v2 v1 = true else lt v1 v2 = true) else (if exact then ~ lt v1 v2 = true else lt v2 v1 = true)))).
    { intros v1 v2 V1 V2. unfold stop, before. pose proof (to_eq _ _ _ TO v1 v2 V1 V2) as E.
      assert (AS : lt v1 v2 = true -> lt v2 v1 = true -> False).
      { intros A B. pose proof (to_trans _ _ _ TO v1 v2 v1 V1 V2 V1 A B) as C. rewrite (to_irrefl _ _ _ TO v1 V1) in C. discriminate. }
      destruct forward, exact; cbn; rewrite ?Bool.orb_false_iff;
        destruct (lt v1 v2) eqn:A, (lt v2 v1) eqn:B, (eq v1 v2) eqn:C; intuition congruence. }
    unfold elig, eligible. split; intros (k & v1 & v2 & A & B & C & D & V1 & V2 & E); exists k, v1, v2;
      rewrite !zrd_some, !Nat2Z.id in * by lia; repeat split; auto; apply X; auto.
  Qed.

  Lemma align_ok : okt False (asof_spec (fun x y => lt x y = true) (fun x => valid x = true) exact key1 key2 val1 val2 forward bad)
                       (MultiKeyAlign keq H lt eq valid forward exact bad d key1 key2 val1 val2).
  Proof using Hkeq TO HH L1 L2 Hn S1 S2.
    unfold MultiKeyAlign. set (size := AllocMemory MASK false (Z.of_nat (length key2))).
    assert (Hs : Z.of_nat (length key2) < size) by (apply alloc_gt; lia).
    fold (dir forward (length key1)). fold (dir forward (length key2)). change (fun x y : V => if forward then lt y x else lt x y) with before.
    eapply okt_bind.
    - eapply okt_weaken with (T := al_small key2 size) (Q := rows_ok before eq valid exact bad key1 key2 val1 val2 (dir forward (length key2)) (dir forward (length key1))).
      + apply (loop_ok keq Hkeq (H size) before eq valid before_order exact bad key1 key2 val1 val2 size) with (dall := []); auto.
        * intros x _. apply HH. lia.
        * intros x _. apply HH. lia.
        * intros j. apply dir_in.
        * rewrite !dir_length. lia.
        * split.
          -- unfold new_table. rewrite repeat_length. lia.
          -- apply tinv_new.
          -- intros p Hp. apply in_somes in Hp as (s & Hs'). apply zrd_inv in Hs' as (_ & Hs'). unfold new_table in Hs'.
             rewrite nth_error_repeat' in Hs'. now destruct (Nat.ltb _ _).
          -- intros q [].
        * intros i. apply dir_in.
        * apply dir_sorted. auto.
        * apply dir_sorted. auto.
        * intros i q v v2 _ [].
      + intros T. apply T. apply fewer_length. auto.
      + intros ws Hw. exact Hw.
    - intros ws (Ef & Hrow). cbv beta in *.
      assert (ND : NoDup (map fst ws)) by (rewrite Ef; apply dir_nodup).
      assert (Rg : forall i x, In (i, x) ws -> 0 <= i < Z.of_nat (length (repeat d (length key1)))).
      { intros i x Hx. apply (in_map fst) in Hx. cbn in Hx. rewrite Ef in Hx. apply dir_in in Hx. now rewrite repeat_length. }
      destruct (writes_total ws (repeat d (length key1)) Rg) as (o & Eo & Lo). rewrite Eo. cbn.
      rewrite repeat_length in Lo. split; auto. intros i r Er.
      assert (Hi : (i < length key1)%nat) by (apply nth_error_Some_lt in Er; lia).
      assert (Hin : In (Z.of_nat i) (map fst ws)) by (rewrite Ef; apply dir_in; lia).
      apply in_map_iff in Hin as ((i', r') & E & Hin). cbn in E. subst i'.
      pose proof (writes_read ws _ _ ND Eo i) as WR. rewrite Er in WR.
      destruct (find _ ws) as [(i', r0)|] eqn:Ef0.
      2:{ apply (find_none _ _ Ef0) in Hin. cbn in Hin. rewrite Z.eqb_refl in Hin. discriminate. }
      apply find_some in Ef0 as (Hin0 & E0). cbn in E0, WR. apply Z.eqb_eq in E0. subst i'. inversion WR; subst r0.
      clear r' Hin. rename Hin0 into Hin. 
      specialize (Hrow _ _ Hin).
      destruct Hrow as [(l1 & l2 & Ed & El & Hl)|(-> & Hnone)].
      + left. assert (Rr : In r (dir forward (length key2))) by (rewrite Ed; apply in_elt). apply dir_in in Rr.
        exists (Z.to_nat r). rewrite Z2Nat.id by lia. split; [apply elig_iff; now rewrite Z2Nat.id by lia|]. split; auto.
        intros j' Hj'. assert (Hj'' : In (Z.of_nat j') (dir forward (length key2))).
        { apply dir_in. destruct Hj' as (k & v1 & v2 & _ & Ek & _). apply nth_error_Some_lt in Ek. lia. }
        rewrite Ed in Hj''. apply in_app_or in Hj'' as [Hq|[Hq|Hq]].
        * pose proof (dir_before _ _ _ _ _ _ Ed Hq). destruct forward; lia.
        * destruct forward; lia.
        * exfalso. apply (Hl _ Hq). now apply elig_iff.
      + right. split; auto. intros j Hj. apply (Hnone (Z.of_nat j)); [|now apply elig_iff].
        apply dir_in. destruct Hj as (k & v1 & v2 & _ & Ek & _). apply nth_error_Some_lt in Ek. lia.
  Qed.
End Both.

(** ** Times *)

Lemma int_time bad : time_order Z.ltb Z.eqb (fun x => negb (x =? bad)).
Proof. split; intros; try lia. Qed.

Lemma fl_time : time_order flt feq (fun x => negb (is_nan x)).
Proof.
  split.
  - intros x _. apply flt_irrefl.
  - intros x y z _ _ _. apply flt_trans.
  - intros [| |x|] [| |y|] [| |z|]; cbn; auto; try discriminate. lia.
  - intros [| |x|] [| |y|]; cbn; try discriminate; try (split; [discriminate|intros []; discriminate]); try (split; auto; fail). lia.
Qed.

(** ** Binned keys, when the second table has one key only *)

Section Cat.
  Context {V : Type} (lt eq : V -> V -> bool) (TO : time_order lt eq (fun _ => true)).
  Context (bad k0 : Z) (key1 key2 : list Z) (val1 val2 : list V) (uniques : nat).
  Context (Ln : (length key1 <= length key2)%nat) (K2 : forall k, In k key2 -> k = k0) (Kr : forall k, In k (k0 :: key1) -> 0 <= k < Z.of_nat uniques).
  Context (L1 : length val1 = length key1) (L2 : length val2 = length key2).
  Context (S1 : time_sorted (fun x y => lt x y = true) (fun _ => True) val1) (S2 : time_sorted (fun x y => lt x y = true) (fun _ => True) val2).
  Local Notation elig0 := (eligible (fun x y => lt x y = true) (fun _ => True) true key1 key2 val1 val2 false).
  Local Notation row0 := (asof_row (fun x y => lt x y = true) (fun _ => True) true key1 key2 val1 val2 false bad).

  Definition cat_loc (loc : list Z) (j : nat) : Prop :=
    length loc = uniques /\ forall k, 0 <= k < Z.of_nat uniques -> zrd loc k = Some (if k =? k0 then Z.of_nat j - 1 else -1).

  Lemma cat_row loc i j : cat_loc loc j -> (i < length key1)%nat -> (j <= length key2)%nat ->
    (forall q v1 v2, (q < j)%nat -> nth_error val1 i = Some v1 -> nth_error val2 q = Some v2 -> lt v1 v2 = false) ->
    (forall q v1 v2, (j <= q)%nat -> nth_error val1 i = Some v1 -> nth_error val2 q = Some v2 -> lt v1 v2 = true) ->
    exists r, cat_lookup bad key1 loc (Z.of_nat i) = Ret r /\ row0 i r.
  Proof using Kr K2 L1 L2.
    clear S1 S2 TO Ln eq. intros (Ll & Hl) Hi Hj Hlo Hhi. destruct (nth_error_lt key1 i Hi) as (k & Ek). destruct (nth_error_lt val1 i ltac:(lia)) as (v1 & Ev1).
    assert (Hk : 0 <= k < Z.of_nat uniques) by (apply Kr; right; eapply nth_error_In; eauto).
    unfold cat_lookup. rewrite zrd_some, Nat2Z.id, Ek by lia. cbn [lift obind]. rewrite Hl by auto. cbn [lift obind]. eexists. split; [reflexivity|].
    assert (El : forall q, elig0 i q <-> k = k0 /\ (q < j)%nat).
    { intros q. split.
      - intros (k' & w1 & w2 & A & B & C & D & _ & _ & E). rewrite Ek in A. inversion A; subst k'. split; [apply K2; eapply nth_error_In; eauto|].
        destruct (Nat.lt_ge_cases q j); auto. exfalso. apply E. eapply Hhi; eauto.
      - intros (-> & Hq). destruct (nth_error_lt key2 q ltac:(lia)) as (k2 & E2). destruct (nth_error_lt val2 q ltac:(lia)) as (v2 & Ev2).
        assert (k2 = k0) by (apply K2; eapply nth_error_In; eauto). subst k2. exists k0, v1, v2. repeat split; auto.
        rewrite (Hlo q v1 v2); auto; discriminate. }
    destruct (Z.eqb_spec k k0) as [->|Nk].
    - destruct j as [|j].
      + right. split; [|reflexivity]. intros q Hq. apply El in Hq. lia.
      + left. exists j. split; [apply El; split; auto|]. split.
        * destruct (Z.eqb_spec (Z.of_nat (S j) - 1) (-1)); lia.
        * intros q Hq. apply El in Hq. lia.
    - right. split; [|reflexivity]. intros q Hq. apply El in Hq. tauto.
  Qed.

  Lemma cat_loop_ok fuel : forall loc i j res, (length key1 - i + (length key2 - j) < fuel)%nat -> (i <= length key1)%nat -> (j <= length key2)%nat -> cat_loc loc j ->
    (forall q p v1 v2, (q < j)%nat -> (i <= p)%nat -> nth_error val1 p = Some v1 -> nth_error val2 q = Some v2 -> lt v1 v2 = false) ->
    length res = i -> (forall p r, nth_error res p = Some r -> row0 p r) ->
    exists r, cat_loop lt fuel bad key1 key2 val1 val2 loc (Z.of_nat i) (Z.of_nat j) res = Ret r /\
      asof_spec (fun x y => lt x y = true) (fun _ => True) true key1 key2 val1 val2 false bad r.
  Proof using Kr K2 L1 L2 S1 S2 TO Ln.
    induction fuel as [|f IH]; intros loc i j res Hf Hi Hj Hloc Hlo Lr Hr; [lia|]. cbn [cat_loop].
    destruct (Z.ltb_spec (Z.of_nat i) (Z.of_nat (length key1))) as [Q|Q].
    2:{ exists res. split; [reflexivity|]. split; auto. lia. }
    assert (Out : (forall q v1 v2, (j <= q)%nat -> nth_error val1 i = Some v1 -> nth_error val2 q = Some v2 -> lt v1 v2 = true) ->
      exists r, (let! l := cat_lookup bad key1 loc (Z.of_nat i) in cat_loop lt f bad key1 key2 val1 val2 loc (Z.of_nat i + 1) (Z.of_nat j) (res ++ [l])) = Ret r /\
        asof_spec (fun x y => lt x y = true) (fun _ => True) true key1 key2 val1 val2 false bad r).
    { intros Hhi. destruct (cat_row loc i j) as (r & -> & Rr); auto; [lia|intros q w1 w2 A B C; apply (Hlo q i w1 w2); auto|]. cbn [obind].
      replace (Z.of_nat i + 1) with (Z.of_nat (S i)) by lia. apply IH; auto; try lia.
      - intros q p v1 v2 A B. apply Hlo; auto. lia.
      - rewrite app_length. cbn. lia.
      - intros p x E. destruct (Nat.lt_ge_cases p (length res)); [rewrite nth_error_app1 in E by auto; auto|].
        rewrite nth_error_app2 in E by auto. destruct (p - length res)%nat as [|m] eqn:Em; [|destruct m; discriminate].
        cbn in E. inversion E; subst x. replace p with i by lia. auto. }
    destruct (nth_error_lt val1 i ltac:(lia)) as (v1 & Ev1).
    destruct (Z.ltb_spec (Z.of_nat j) (Z.of_nat (length key2))) as [Qj|Qj].
    - destruct (nth_error_lt val2 j ltac:(lia)) as (v2 & Ev2). rewrite !zrd_some, !Nat2Z.id, Ev1, Ev2 by lia. cbn [lift obind].
      destruct (lt v1 v2) eqn:E12.
      + apply Out. intros q w1 w2 Hq A B. rewrite Ev1 in A. inversion A; subst w1.
        destruct (Nat.eq_dec q j) as [->|]; [congruence|].
        destruct (to_weak _ _ _ TO v1 w2 v2) as [C|C]; auto. exfalso. apply (S2 j q v2 w2); auto. lia.
      + destruct (nth_error_lt key2 i ltac:(lia)) as (k2 & Ek2). assert (k2 = k0) by (apply K2; eapply nth_error_In; eauto). subst k2.
        rewrite Ek2. cbn [lift obind]. destruct Hloc as (Ll & Hl).
        assert (Hk0 : 0 <= k0 < Z.of_nat uniques) by (apply Kr; cbn; auto).
        rewrite zwr_some by lia. cbn [lift obind]. replace (Z.of_nat j + 1) with (Z.of_nat (S j)) by lia. apply IH; auto; try lia.
        * split; [now rewrite length_upd|]. intros k Hk. rewrite zrd_some by lia. destruct (Z.eqb_spec k k0) as [->|Nk].
          -- rewrite nth_error_upd_eq by lia. f_equal. lia.
          -- rewrite nth_error_upd_neq by lia. specialize (Hl k Hk). rewrite zrd_some in Hl by lia. rewrite Hl. destruct (Z.eqb_spec k k0); congruence.
        * intros q p w1 w2 A B C D. destruct (Nat.eq_dec q j) as [->|]; [|eapply Hlo; eauto; lia].
          rewrite Ev2 in D. inversion D; subst w2. destruct (lt w1 v2) eqn:E; auto. exfalso.
          destruct (Nat.eq_dec p i) as [->|]; [congruence|].
          destruct (to_weak _ _ _ TO w1 v1 v2) as [F|F]; auto; [|congruence]. apply (S1 i p v1 w1); auto. lia.
    - apply Out. intros q w1 w2 Hq A B. apply nth_error_Some_lt in B. lia.
  Qed.

  Lemma cat_ok' : exists r, FindLastMatchCategorical lt bad key1 key2 val1 val2 uniques = Ret r /\
      asof_spec (fun x y => lt x y = true) (fun _ => True) true key1 key2 val1 val2 false bad r.
  Proof using Kr K2 L1 L2 S1 S2 TO Ln.
    unfold FindLastMatchCategorical. apply (cat_loop_ok _ _ 0 0); auto; try lia.
    - split; [apply repeat_length|]. intros k Hk. rewrite zrd_some, nth_error_repeat' by lia.
      replace (Z.to_nat k <? uniques)%nat with true by (symmetry; apply Nat.ltb_lt; lia). destruct (k =? k0); reflexivity.
    - intros [|p] r E; discriminate.
  Qed.
End Cat.

Lemma cat_ok V (lt eq : V -> V -> bool) bad k0 key1 key2 val1 val2 uniques : time_order lt eq (fun _ => true) -> (length key1 <= length key2)%nat ->
  (forall k, In k key2 -> k = k0) -> (forall k, In k (k0 :: key1) -> 0 <= k < Z.of_nat uniques) -> length val1 = length key1 -> length val2 = length key2 ->
  time_sorted (fun x y => lt x y = true) (fun _ => True) val1 -> time_sorted (fun x y => lt x y = true) (fun _ => True) val2 ->
  exists r, FindLastMatchCategorical lt bad key1 key2 val1 val2 uniques = Ret r /\
    asof_spec (fun x y => lt x y = true) (fun _ => True) true key1 key2 val1 val2 false bad r.
Proof. intros. eapply cat_ok'; eauto. Qed.
