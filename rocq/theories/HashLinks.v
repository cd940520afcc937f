(** Group links, unique rows, rolling keys. *)
From Verif Require Import Base Mem MemLemmas Par HashModel HashTable HashSpec HashProofs HashMember HashGroup.
Local Open Scope Z_scope.

(** ** Adding a row to the columns *)

Lemma countb_in g idx : (0 < countb (Z.eqb g) idx)%nat <-> In g idx.
Proof.
  induction idx as [|x idx IH]; cbn; [split; [lia|tauto]|]. destruct (Z.eqb_spec g x) as [->|N].
  - split; auto. lia.
  - rewrite Nat.add_0_l, IH. split; auto. intros [E|E]; auto. congruence.
Qed.

Lemma countb_notin g idx : ~ In g idx -> countb (Z.eqb g) idx = 0%nat.
Proof. intros H. rewrite <- countb_in in H. lia. Qed.

Section Columns.
  Implicit Types (idx : list Z).

  Lemma in_group_app idx z g i : in_group (idx ++ [z]) g i <-> in_group idx g i \/ (i = length idx /\ z = g).
  Proof.
    unfold in_group. split.
    - intros E. apply nth_app_inv in E as [E|(-> & ->)]; auto.
    - intros [E|(-> & ->)]; [now apply nth_app_old|now apply nth_app_new].
  Qed.

  Lemma in_group_lt idx g i : in_group idx g i -> (i < length idx)%nat.
  Proof. apply nth_error_Some_lt. Qed.

  Definition last_of idx (g : Z) (l : nat) : Prop := in_group idx g l /\ forall j, in_group idx g j -> (j <= l)%nat.

  Lemma last_of_new idx z : last_of (idx ++ [z]) z (length idx).
  Proof.
    split; [apply in_group_app; auto|]. intros j Hj. apply in_group_lt in Hj. rewrite app_length in Hj. cbn in Hj. lia.
  Qed.
  Lemma last_of_other idx z g l : last_of idx g l -> z <> g -> last_of (idx ++ [z]) g l.
  Proof.
    intros (A & B) N. split; [apply in_group_app; auto|]. intros j Hj. apply in_group_app in Hj as [Hj|(_ & Hj)]; [auto|congruence].
  Qed.

  Lemma next_new idx next z : column idx (next_row idx) next -> ~ In z idx -> column (idx ++ [z]) (next_row (idx ++ [z])) (next ++ [GB_INVALID]).
  Proof.
    intros (L & C) Hz. split; [rewrite !app_length; cbn; lia|]. intros i r E g Hg.
    apply nth_app_inv in E as [E|(-> & ->)].
    - assert (Hg' : in_group idx g i).
      { apply in_group_app in Hg as [Hg|(-> & _)]; auto. apply nth_error_Some_lt in E. lia. }
      destruct (C i r E g Hg') as [(j & Er & Hj & Gj & Hb)|(Er & Hb)].
      + left. exists j. repeat split; auto; [apply in_group_app; auto|]. intros j' Hj' G'. apply in_group_app in G' as [G'|(-> & ->)]; [eapply Hb; eauto|].
        apply in_group_lt in Gj. lia.
      + right. split; auto. intros j Hj G'. apply in_group_app in G' as [G'|(-> & ->)]; [eapply Hb; eauto|].
        apply Hz. eapply nth_error_In. exact Hg'.
    - right. split; auto. intros j Hj G'. apply in_group_lt in G'. rewrite app_length in G'. cbn in G'. lia.
  Qed.

  Lemma next_old idx next z l : column idx (next_row idx) next -> last_of idx z l ->
    column (idx ++ [z]) (next_row (idx ++ [z])) (upd (next ++ [GB_INVALID]) l (Z.of_nat (length idx))).
  Proof.
    intros (L & C) (Gl & Hl). pose proof (in_group_lt _ _ _ Gl) as Ll.
    split; [rewrite length_upd, !app_length; cbn; lia|]. intros i r E g Hg.
    destruct (Nat.eq_dec i l) as [->|Ni].
    - rewrite nth_error_upd_eq in E by (rewrite app_length; lia). inversion E; subst r.
      assert (g = z). { apply in_group_app in Hg as [Hg|(-> & _)]; [|lia]. unfold in_group in *. congruence. } subst g.
      left. exists (length idx). repeat split; auto; [apply in_group_app; auto|].
      intros j' Hj' G'. apply in_group_app in G' as [G'|(-> & _)]; [|lia]. apply Hl in G'. lia.
    - rewrite nth_error_upd_neq in E by auto. apply nth_app_inv in E as [E|(-> & ->)].
      + assert (Li : (i < length idx)%nat) by (apply nth_error_Some_lt in E; lia).
        assert (Hg' : in_group idx g i) by (apply in_group_app in Hg as [Hg|(-> & _)]; auto; lia).
        destruct (C i r E g Hg') as [(j & Er & Hj & Gj & Hb)|(Er & Hb)].
        * left. exists j. repeat split; auto; [apply in_group_app; auto|]. intros j' Hj' G'. apply in_group_app in G' as [G'|(-> & ->)]; [eapply Hb; eauto|].
          apply in_group_lt in Gj. lia.
        * right. split; auto. intros j Hj G'. apply in_group_app in G' as [G'|(-> & ->)]; [eapply Hb; eauto|].
          specialize (Hl i Hg'). apply (Hb l); auto. lia.
      + right. split; auto. intros j Hj G'. apply in_group_lt in G'. rewrite app_length in G'. cbn in G'. lia.
  Qed.

  Lemma sizes_skip idx first cnt z : sizes idx first cnt -> z <= 0 -> sizes (idx ++ [z]) first cnt.
  Proof.
    intros (L & C) Hz. split; auto. intros g c E. rewrite (C g c E), countb_app. cbn. destruct (Z.eqb_spec (Z.of_nat g + 1) z); lia.
  Qed.
  Lemma sizes_old idx first cnt u n : sizes idx first cnt -> nth_error cnt u = Some n ->
    sizes (idx ++ [Z.of_nat u + 1]) first (upd cnt u (n + 1)).
  Proof.
    intros (L & C) Hu. pose proof (nth_error_Some_lt _ _ _ Hu). split; [now rewrite length_upd|]. intros g c E. rewrite countb_app. cbn.
    destruct (Nat.eq_dec g u) as [->|N].
    - rewrite nth_error_upd_eq in E by auto. inversion E; subst c. rewrite Z.eqb_refl, (C u n Hu). lia.
    - rewrite nth_error_upd_neq in E by auto. rewrite (C g c E). destruct (Z.eqb_spec (Z.of_nat g + 1) (Z.of_nat u + 1)); lia.
  Qed.
  Lemma sizes_new idx first cnt r : sizes idx first cnt -> ~ In (Z.of_nat (length first) + 1) idx ->
    sizes (idx ++ [Z.of_nat (length first) + 1]) (first ++ [r]) (cnt ++ [1]).
  Proof.
    intros (L & C) Hn. split; [rewrite !app_length; cbn; lia|]. intros g c E. rewrite countb_app. cbn.
    apply nth_app_inv in E as [E|(-> & ->)].
    - rewrite (C g c E). apply nth_error_Some_lt in E. destruct (Z.eqb_spec (Z.of_nat g + 1) (Z.of_nat (length first) + 1)); lia.
    - rewrite L, Z.eqb_refl, countb_notin by auto. lia.
  Qed.

  Lemma prev_snoc idx prev z r : column idx (prev_row idx) prev ->
    (last_of idx z r \/ ~ In z idx) ->
    forall p, (forall l, last_of idx z l -> p = Z.of_nat l) -> (~ In z idx -> p = GB_INVALID) ->
    column (idx ++ [z]) (prev_row (idx ++ [z])) (prev ++ [p]).
  Proof.
    intros (L & C) Hd p Hp Hn. split; [rewrite !app_length; cbn; lia|]. intros i q E g Hg.
    apply nth_app_inv in E as [E|(-> & ->)].
    - assert (Li : (i < length idx)%nat) by (apply nth_error_Some_lt in E; lia).
      assert (Hg' : in_group idx g i) by (apply in_group_app in Hg as [Hg|(-> & _)]; auto; lia).
      destruct (C i q E g Hg') as [(j & Er & Hj & Gj & Hb)|(Er & Hb)].
      + left. exists j. repeat split; auto; [apply in_group_app; auto|]. intros j' Hj' G'. apply in_group_app in G' as [G'|(-> & ->)]; [eapply Hb; eauto|lia].
      + right. split; auto. intros j Hj G'. apply in_group_app in G' as [G'|(-> & ->)]; [eapply Hb; eauto|lia].
    - rewrite L in *. assert (g = z). { apply in_group_app in Hg as [Hg|(_ & ->)]; auto. apply in_group_lt in Hg. lia. } subst g.
      destruct Hd as [Hl|Hz].
      + left. exists r. split; [now apply Hp|]. destruct Hl as (Gr & Hl). split; [now apply in_group_lt in Gr|].
        split; [apply in_group_app; auto|]. intros j' Hj' G'. apply in_group_app in G' as [G'|(-> & _)]; [|lia]. apply Hl in G'. lia.
      + right. split; [auto|]. intros j Hj G'. apply in_group_app in G' as [G'|(-> & _)]; [|lia]. apply Hz. eapply nth_error_In. exact G'.
  Qed.

  Lemma running_snoc idx run z n : column idx (running idx) run -> n = Z.of_nat (countb (Z.eqb z) idx) + 1 ->
    column (idx ++ [z]) (running (idx ++ [z])) (run ++ [n]).
  Proof.
    intros (L & C) ->. split; [rewrite !app_length; cbn; lia|]. intros i r E g Hg. apply nth_app_inv in E as [E|(-> & ->)].
    - assert (Li : (i < length idx)%nat) by (apply nth_error_Some_lt in E; lia).
      assert (Hg' : in_group idx g i) by (apply in_group_app in Hg as [Hg|(-> & _)]; auto; lia).
      rewrite (C i r E g Hg'). rewrite firstn_app. replace (S i - length idx)%nat with O by lia. cbn [firstn]. now rewrite app_nil_r.
    - rewrite L in *. assert (g = z). { apply in_group_app in Hg as [Hg|(_ & ->)]; auto. apply in_group_lt in Hg. lia. } subst g.
      rewrite firstn_all2 by (rewrite app_length; cbn; lia). rewrite countb_app. cbn. rewrite Z.eqb_refl. lia.
  Qed.

  Lemma last_running idx run z l n : column idx (running idx) run -> last_of idx z l -> nth_error run l = Some n ->
    n = Z.of_nat (countb (Z.eqb z) idx).
  Proof.
    intros (L & C) (G & Hl) E. rewrite (C l n E z G). f_equal. rewrite <- (firstn_skipn (S l) idx) at 2. rewrite countb_app.
    enough (countb (Z.eqb z) (skipn (S l) idx) = 0%nat) by lia. apply countb_notin. intros C'.
    apply In_nth_error in C' as (k & Ek). rewrite nth_error_skipn in Ek. apply Hl in Ek. lia.
  Qed.

  Lemma first_old idx fst_ z l f : column idx (group_first idx) fst_ -> in_group idx z l -> nth_error fst_ l = Some f ->
    column (idx ++ [z]) (group_first (idx ++ [z])) (fst_ ++ [f]).
  Proof.
    intros (L & C) Gl Ef. split; [rewrite !app_length; cbn; lia|]. intros i r E g Hg.
    assert (X : exists k, nth_error fst_ k = Some r /\ in_group idx g k).
    { apply nth_app_inv in E as [E|(-> & ->)].
      - exists i. split; auto. apply in_group_app in Hg as [Hg|(-> & _)]; auto. apply nth_error_Some_lt in E. lia.
      - exists l. split; auto. rewrite L in Hg. apply in_group_app in Hg as [Hg|(_ & ->)]; auto. apply in_group_lt in Hg. lia. }
    destruct X as (k & Ek & Gk). destruct (C k r Ek g Gk) as (j & -> & Gj & Hj). exists j. split; auto. split; [apply in_group_app; auto|].
    intros j' G'. apply in_group_app in G' as [G'|(-> & _)]; auto. apply in_group_lt in Gj. lia.
  Qed.

  Lemma first_new idx fst_ z : column idx (group_first idx) fst_ -> ~ In z idx ->
    column (idx ++ [z]) (group_first (idx ++ [z])) (fst_ ++ [Z.of_nat (length idx)]).
  Proof.
    intros (L & C) Hz. split; [rewrite !app_length; cbn; lia|]. intros i r E g Hg. apply nth_app_inv in E as [E|(-> & ->)].
    - assert (Gi : in_group idx g i). { apply in_group_app in Hg as [Hg|(-> & _)]; auto. apply nth_error_Some_lt in E. lia. }
      destruct (C i r E g Gi) as (j & -> & Gj & Hj). exists j. split; auto. split; [apply in_group_app; auto|].
      intros j' G'. apply in_group_app in G' as [G'|(-> & _)]; auto. apply in_group_lt in Gj. lia.
    - rewrite L in Hg. assert (g = z). { apply in_group_app in Hg as [Hg|(_ & ->)]; auto. apply in_group_lt in Hg. lia. } subst g.
      exists (length idx). split; auto. split; [apply in_group_app; auto|]. intros j' G'. apply in_group_app in G' as [G'|(-> & _)]; auto.
      exfalso. apply Hz. eapply nth_error_In. exact G'.
  Qed.

  Lemma column_nil P : column [] P [].
  Proof. split; auto. intros [|i] r E; discriminate. Qed.
End Columns.

(** The group numbers in use are at most the number of groups. *)
Lemma grouped_bound {K} (rows : list (K * bool)) idx first z : grouped rows idx first -> In z idx -> 0 <= z <= Z.of_nat (length first).
Proof.
  intros [L Fl Kp Fi Or] Hz. apply In_nth_error in Hz as (i & E). pose proof (nth_error_Some_lt _ _ _ E) as Li. rewrite L in Li.
  destruct (nth_error_lt rows i Li) as ((k & b) & Er). destruct b.
  - destruct (Kp i k Er) as (g & r & A & _ & _ & D). rewrite E in D. inversion D. apply nth_error_Some_lt in A. lia.
  - rewrite (Fl i k Er) in E. inversion E. lia.
Qed.

Lemma grouped_fresh {K} (rows : list (K * bool)) idx first : grouped rows idx first -> ~ In (Z.of_nat (length first) + 1) idx.
Proof. intros G C. apply (grouped_bound _ _ _ _ G) in C. lia. Qed.

(** A kept row of group [u + 1] tells the key of the group. *)
Lemma grouped_key {K} (rows : list (K * bool)) idx first i k u : grouped rows idx first -> kept rows i k -> nth_error idx i = Some (Z.of_nat u + 1) ->
  exists r, nth_error first u = Some (Z.of_nat r) /\ first_row rows r k.
Proof.
  intros [L Fl Kp Fi Or] Hk E. destruct (Kp i k Hk) as (g & r & A & B & _ & D). rewrite E in D. assert (u = g) by (inversion D; lia).
  subst g. eauto.
Qed.

(** ** GroupBySuper *)

Section Super.
  Context {K : Type} (keq : K -> K -> bool) (Hkeq : forall x y, keq x y = true <-> x = y) (H : Z -> K -> Z).
  Context (rows : list (K * bool)) (size : Z) (Hsize : 0 <= size) (HH : forall i x, kept rows i x -> 0 <= H size x < size).

  Let keys := map fst rows.
  Definition skey (p : Z * Z) : option K := zrd keys (fst p).
  Definition rhk (o : option K) : Z := match o with Some x => H size x | None => 0 end.

  Record sinv (pre : list (K * bool)) (st : super) : Prop := {
    si_len : Z.of_nat (length (s_tab st)) = size;
    si_inv : tinv skey rhk (s_tab st);
    si_grp : grouped pre (s_idx st) (s_first st);
    si_next : column (s_idx st) (next_row (s_idx st)) (s_next st);
    si_cnt : sizes (s_idx st) (s_first st) (s_cnt st);
    si_stored : forall p, In p (somes (s_tab st)) -> exists l u x, p = (Z.of_nat l, Z.of_nat u) /\ kept pre l x /\
                  last_of (s_idx st) (Z.of_nat u + 1) l;
    si_all : forall i x, kept pre i x -> exists p, In p (somes (s_tab st)) /\ skey p = Some x;
    si_bad : (s_inv st = GB_INVALID /\ ~ In 0 (s_idx st)) \/ (exists l, s_inv st = Z.of_nat l /\ last_of (s_idx st) 0 l)
  }.

  Lemma skey_row i x u : kept rows i x -> skey (Z.of_nat i, u) = Some x.
  Proof.
    intros E. unfold skey, keys. cbn [fst]. rewrite zrd_some, Nat2Z.id by lia. unfold kept in E. rewrite nth_error_map, E. reflexivity.
  Qed.

  Lemma super_step_ok pre x keep post st : rows = pre ++ (x, keep) :: post -> sinv pre st ->
    okt (gb_small rows size) (sinv (pre ++ [(x, keep)])) (super_step keq H size keys st x keep).
  Proof.
    intros Er G. pose proof G as [L I Gr Nx Ct S A Bd]. unfold super_step.
    assert (Li : length (s_idx st) = length pre) by apply Gr.
    assert (LN : length (s_next st) = length (s_idx st)) by apply Nx.
    destruct keep.
    - assert (Ux : kept rows (length pre) x).
      { rewrite Er. unfold kept. rewrite nth_error_app2, Nat.sub_diag by auto. reflexivity. }
      assert (Kpre : forall i y, kept pre i y -> kept rows i y) by (intros; eapply kept_pre; eauto).
      destruct (probe_inv skey rhk (s_tab st) (fun p => row_match keq keys x (fst p)) (Some x) I) as (r & Ep & F).
      { cbn. rewrite L. eapply HH; eauto. }
      { intros p Hp. destruct (S p Hp) as (l & u & y & -> & Ky & _). pose proof (skey_row l y (Z.of_nat u) (Kpre _ _ Ky)) as E.
        rewrite E. unfold skey in E. cbn [fst] in *. unfold row_match. rewrite E. cbn. exists (keq x y). split; auto. rewrite Hkeq. split; congruence. }
      cbn [rhk] in Ep. rewrite Ep. cbn [obind]. clear Ep. inversion F as [s p Ho Hp Ek|s Es Nk Ti|Nk Fu]; subst r.
      + destruct (S p Hp) as (l & u & y & -> & Ky & Hlast).
        assert (y = x) by (rewrite (skey_row l y _ (Kpre _ _ Ky)) in Ek; congruence). subst y.
        pose proof Hlast as (Gl & _). pose proof (in_group_lt _ _ _ Gl) as Ll.
        destruct (grouped_key _ _ _ l x u Gr Ky Gl) as (r & Hr & Fr).
        rewrite (zrd_some (s_idx st)), Nat2Z.id by lia. unfold in_group in Gl. rewrite Gl. cbn [lift obind].
        rewrite zwr_some by (rewrite app_length; cbn; lia). cbn [lift obind]. rewrite Nat2Z.id.
        pose proof Ct as (Lc & _).
        destruct (nth_error_lt (s_cnt st) u) as (n & En). { rewrite Lc. now apply nth_error_Some_lt in Hr. }
        rewrite (zrd_some (s_cnt st)), Nat2Z.id, En by lia. cbn [lift obind].
        rewrite zwr_some by (apply nth_error_Some_lt in En; lia). cbn [lift obind]. rewrite Nat2Z.id. cbn [okt].
        assert (N : NoDup (map skey (somes (s_tab st)))) by apply I.
        assert (Ekn : skey (Z.of_nat (length (s_idx st)), Z.of_nat u) = Some x) by (rewrite Li; now apply skey_row).
        split; cbn [s_tab s_idx s_first s_next s_cnt s_inv].
        * now rewrite store_length.
        * eapply tinv_replace; eauto. congruence.
        * eapply grouped_old; eauto.
        * now apply next_old.
        * now apply sizes_old.
        * intros q Hq. apply (in_somes_replace skey (s_tab st) s _ _ q Ho N) in Hq as [-> |(Hq & Nq)].
          -- exists (length (s_idx st)), u, x. split; auto. split; [rewrite Li; apply kept_app; auto|apply last_of_new].
          -- destruct (S q Hq) as (l' & u' & y & -> & Ky' & Hl'). exists l', u', y. split; auto. split; [apply kept_app; auto|].
             apply last_of_other; auto. intros E. assert (u' = u) by lia. subst u'. destruct (grouped_key _ _ _ l' y u Gr Ky' (proj1 Hl')) as (r' & Hr' & Fr').
             apply Nq. rewrite (skey_row l' y _ (Kpre _ _ Ky')), Ek. f_equal. assert (r' = r) by (rewrite Hr in Hr'; inversion Hr'; lia). subst r'.
             destruct Fr as (Fr & _), Fr' as (Fr' & _). unfold kept in *. congruence.
        * intros i y Hy. apply kept_app in Hy as [Hy|(_ & Hy)].
          -- destruct (A i y Hy) as (p' & Hp' & Ep'). destruct (keq y x) eqn:Eyx.
             ++ apply Hkeq in Eyx. subst y. eexists. split; [apply (in_somes_replace skey (s_tab st) s _ _ _ Ho N); left; reflexivity|auto].
             ++ exists p'. split; auto. apply (in_somes_replace skey (s_tab st) s _ _ p' Ho N). right. split; auto. rewrite Ep', Ek.
                intros C. inversion C; subst y. assert (keq x x = true) by now apply Hkeq. congruence.
          -- inversion Hy; subst y. eexists. split; [apply (in_somes_replace skey (s_tab st) s _ _ _ Ho N); left; reflexivity|auto].
        * destruct Bd as [(E & Nz)|(lb & E & Hb)]; [left|right].
          -- split; auto. intros C. apply in_app_or in C as [C|[C|[]]]; [auto|lia].
          -- exists lb. split; auto. apply last_of_other; auto. lia.
      + cbn [okt]. assert (Hn : forall j, ~ kept pre j x).
        { intros j C'. destruct (A j x C') as (p & Hp & Ep). now apply (Nk p Hp). }
        assert (Ekn : skey (Z.of_nat (length (s_idx st)), Z.of_nat (length (s_first st))) = Some x) by (rewrite Li; now apply skey_row).
        pose proof (grouped_fresh _ _ _ Gr) as Hf.
        split; cbn [s_tab s_idx s_first s_next s_cnt s_inv].
        * now rewrite store_length.
        * apply Ti. auto.
        * now apply grouped_new.
        * now apply next_new.
        * now apply sizes_new.
        * intros q Hq. apply in_somes_insert in Hq as [-> |Hq]; auto.
          -- exists (length (s_idx st)), (length (s_first st)), x. split; auto. split; [rewrite Li; apply kept_app; auto|apply last_of_new].
          -- destruct (S q Hq) as (l' & u' & y & -> & Ky' & Hl'). exists l', u', y. split; auto. split; [apply kept_app; auto|].
             apply last_of_other; auto. intros E. apply Hf. rewrite E. eapply nth_error_In. apply Hl'.
        * intros i y Hy. apply kept_app in Hy as [Hy|(_ & Hy)].
          -- destruct (A i y Hy) as (p & Hp & Ep). exists p. split; auto. apply in_somes_insert; auto.
          -- inversion Hy; subst y. eexists. split; [apply in_somes_insert; auto|auto].
        * destruct Bd as [(E & Nz)|(lb & E & Hb)]; [left|right].
          -- split; auto. intros C. apply in_app_or in C as [C|[C|[]]]; [auto|lia].
          -- exists lb. split; auto. apply last_of_other; auto. lia.
      + cbn [okt]. intros (U & HU & HL). apply (not_full skey rhk (s_tab st) (map Some U) I); auto.
        * intros p Hp. destruct (S p Hp) as (l & u & y & -> & Ky & _). rewrite (skey_row l y _ (Kpre _ _ Ky)). apply in_map, HU.
          apply in_map_iff. exists (y, true). split; auto. apply filter_In. split; auto. eapply nth_error_In. apply Kpre. exact Ky.
        * rewrite map_length. lia.
    - assert (Common : forall next', column (s_idx st ++ [0]) (next_row (s_idx st ++ [0])) next' ->
        sinv (pre ++ [(x, false)]) {| s_tab := s_tab st; s_idx := s_idx st ++ [0]; s_next := next'; s_first := s_first st; s_cnt := s_cnt st;
                                      s_inv := Z.of_nat (length (s_idx st)) |}).
      { intros next' Hn'. split; cbn [s_tab s_idx s_first s_next s_cnt s_inv]; auto.
        - now apply grouped_skip.
        - apply sizes_skip; auto; lia.
        - intros q Hq. destruct (S q Hq) as (l' & u' & y & -> & Ky' & Hl'). exists l', u', y. split; auto. split; [apply kept_app; auto|].
          apply last_of_other; auto. lia.
        - intros i y Hy. apply kept_app in Hy as [Hy|(_ & Hy)]; [eauto|discriminate].
        - right. exists (length (s_idx st)). split; auto. apply last_of_new. }
      destruct Bd as [(E & Nz)|(lb & E & Hb)]; rewrite E.
      + rewrite Z.eqb_refl. cbn [obind okt]. apply Common. now apply next_new.
      + destruct (Z.eqb_spec (Z.of_nat lb) GB_INVALID) as [C|_]; [unfold GB_INVALID in C; lia|].
        pose proof (in_group_lt _ _ _ (proj1 Hb)). rewrite zwr_some by (rewrite app_length; cbn; lia). cbn [lift obind okt]. rewrite Nat2Z.id.
        apply Common. now apply next_old.
  Qed.

  Lemma super_loop_ok post : forall pre st, rows = pre ++ post -> sinv pre st -> okt (gb_small rows size) (sinv rows) (super_loop keq H size keys st post).
  Proof.
    induction post as [|(x, keep) post IH]; intros pre st E G; cbn [super_loop].
    - cbn. rewrite app_nil_r in E. rewrite E. auto.
    - eapply okt_bind; [eapply super_step_ok; eauto|]. intros st' G'. apply (IH (pre ++ [(x, keep)])); auto. rewrite <- app_assoc. auto.
  Qed.

  Lemma super_ok : okt (gb_small rows size)
    (fun r => let '(idx, next, first, cnt) := r in grouped rows idx first /\ column idx (next_row idx) next /\ sizes idx first cnt)
    (GroupBySuper keq H size rows).
  Proof.
    unfold GroupBySuper. eapply okt_bind.
    - apply (super_loop_ok rows []); auto. split; cbn [s_tab s_idx s_first s_next s_cnt s_inv]; auto.
      + unfold new_table. rewrite repeat_length. lia.
      + apply tinv_new.
      + apply grouped_nil.
      + apply column_nil.
      + split; auto. intros [|g] c E; discriminate.
      + intros p Hp. apply in_somes in Hp as (s & Hs). apply zrd_inv in Hs as (_ & Hs). unfold new_table in Hs.
        rewrite nth_error_repeat' in Hs. now destruct (Nat.ltb _ _).
      + intros i x E. unfold kept in E. destruct i; discriminate.
    - intros st [L I Gr Nx Ct S A Bd]. cbn. auto.
  Qed.
End Super.
