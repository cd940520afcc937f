(** Interleavings of several programs, and arrays written as tables. *)
From Verif Require Import Base Mem MemLemmas.

(** [interleave ps l]: [l] is a merge of the programs [ps] that keeps the order within each program. *)
Inductive interleave {A} : list (list A) -> list A -> Prop :=
  | il_nil ps : (forall p, In p ps -> p = []) -> interleave ps []
  | il_step ps i x t l : nth_error ps i = Some (x :: t) -> interleave (upd ps i t) l -> interleave ps (x :: l).

(** Running the programs one after the other is an interleaving. *)
Lemma interleave_concat {A} (ps : list (list A)) : interleave ps (concat ps).
Proof.
  assert (G : forall done ps : list (list A), (forall p, In p done -> p = []) -> interleave (done ++ ps) (concat ps)).
  { intros done ps0. revert done. induction ps0 as [|p ps0 IH]; intros done H.
    - rewrite app_nil_r. now constructor.
    - simpl. revert done H. induction p as [|x p IHp]; intros done H.
      + simpl. replace (done ++ [] :: ps0) with ((done ++ [[]]) ++ ps0) by now rewrite <- app_assoc.
        apply IH. intros q Hq. apply in_app_or in Hq as [Hq|[Hq|[]]]; auto.
      + simpl. apply il_step with (i := length done) (t := p).
        * rewrite nth_error_app2 by lia. now rewrite Nat.sub_diag.
        * rewrite upd_app_r by lia. rewrite Nat.sub_diag. simpl. now apply IHp. }
  apply (G []). simpl. tauto.
Qed.

Lemma interleave_perm {A} (ps : list (list A)) l : interleave ps l -> Permutation l (concat ps).
Proof.
  induction 1 as [ps H|ps i x t l E H IH].
  - replace (concat ps) with (@nil A); auto.
    induction ps as [|p ps IHp]; auto. simpl. rewrite (H p) by now left. simpl. apply IHp. intros q Hq. apply H. now right.
  - destruct (upd_split _ _ t _ E) as (a & b & -> & _ & Eu). rewrite Eu in IH.
    rewrite concat_app in *. simpl in *. rewrite IH. apply Permutation_middle.
Qed.

Lemma interleave_in {A} (ps : list (list A)) l x : interleave ps l -> In x l -> exists p, In p ps /\ In x p.
Proof.
  intros H Hx. apply interleave_perm in H. apply (Permutation_in _ H) in Hx. apply in_concat in Hx. destruct Hx as (p & ? & ?); eauto.
Qed.

(** The steps satisfying [f] appear in the order of the one program that has such steps. *)
Lemma interleave_filter {A} (f : A -> bool) (ps : list (list A)) l : interleave ps l ->
  forall i p, nth_error ps i = Some p ->
  (forall j q, nth_error ps j = Some q -> j <> i -> filter f q = []) -> filter f l = filter f p.
Proof.
  induction 1 as [ps H|ps k x t l E H IH]; intros i p Ei Ho.
  - rewrite (H p); auto. eapply nth_error_In; eauto.
  - assert (Lk : k < length ps) by (eapply nth_error_Some_lt; eauto).
    destruct (Nat.eq_dec k i) as [->|Hne].
    + rewrite E in Ei. inversion Ei; subst p. simpl.
      assert (R : filter f l = filter f t).
      { apply (IH i); [now apply nth_error_upd_eq|].
        intros j q Hj Hn. rewrite nth_error_upd_neq in Hj by auto. eapply Ho; eauto. }
      now rewrite R.
    + assert (Fx : filter f (x :: t) = []) by (eapply Ho; eauto).
      simpl in *. destruct (f x); [discriminate|].
      apply (IH i); [now rewrite nth_error_upd_neq|].
      intros j q Hj Hn. destruct (Nat.eq_dec k j) as [->|Hkj].
      * rewrite nth_error_upd_eq in Hj by auto. now inversion Hj; subst.
      * rewrite nth_error_upd_neq in Hj by auto. eapply Ho; eauto.
Qed.

(** ** Tables *)
Section Tab.
  Context {A : Type}.
  Definition tab (n : nat) (f : Z -> A) : list A := map (fun i => f (Z.of_nat i)) (seq 0 n).
  Lemma tab_length n f : length (tab n f) = n.
  Proof. unfold tab. now rewrite map_length, seq_length. Qed.
  Lemma tab_nth n f i : i < n -> nth_error (tab n f) i = Some (f (Z.of_nat i)).
  Proof. intros H. unfold tab. rewrite nth_error_map, nth_error_seq. destruct (Nat.ltb_spec i n); [reflexivity | lia]. Qed.
  Lemma tab_zrd n f k : (0 <= k < Z.of_nat n)%Z -> zrd (tab n f) k = Some (f k).
  Proof. intros H. rewrite zrd_some by lia. rewrite tab_nth by lia. f_equal. f_equal. lia. Qed.
  Lemma tab_ext n f g : (forall k, (0 <= k < Z.of_nat n)%Z -> f k = g k) -> tab n f = tab n g.
  Proof. intros H. unfold tab. apply map_ext_in. intros i Hi. apply in_seq in Hi. apply H. lia. Qed.
  Lemma tab_zwr n f k x : (0 <= k < Z.of_nat n)%Z -> zwr (tab n f) k x = Some (tab n (fun g => if (g =? k)%Z then x else f g)).
  Proof.
    intros H. rewrite zwr_some by (rewrite tab_length; lia). f_equal. apply list_ext. intros i.
    rewrite nth_error_upd, tab_length.
    destruct (Nat.eqb_spec (Z.to_nat k) i) as [<-|Hne]; simpl.
    - rewrite (proj2 (Nat.ltb_lt _ _)) by lia. rewrite tab_nth by lia.
      rewrite Z2Nat.id by lia. now rewrite Z.eqb_refl.
    - destruct (Nat.lt_ge_cases i n) as [Hi|Hi].
      + rewrite !tab_nth by auto. f_equal. destruct (Z.eqb_spec (Z.of_nat i) k); auto. lia.
      + rewrite !(nth_error_ge (tab n _)) by (rewrite tab_length; lia). reflexivity.
  Qed.
  Lemma tab_zrd_none n f k : ~ (0 <= k < Z.of_nat n)%Z -> zrd (tab n f) k = None.
  Proof.
    intros H. unfold zrd. destruct (Z.leb_spec 0 k); auto. apply nth_error_ge. rewrite tab_length. lia.
  Qed.
  Lemma tab_inj n f g : tab n f = tab n g -> forall k, (0 <= k < Z.of_nat n)%Z -> f k = g k.
  Proof. intros E k Hk. pose proof (tab_zrd n f k Hk) as H. rewrite E, tab_zrd in H by auto. congruence. Qed.
  Lemma tab_const n x : repeat x n = tab n (fun _ => x).
  Proof. unfold tab. apply list_ext. intros i. rewrite nth_error_repeat', nth_error_map, nth_error_seq. now destruct (i <? n). Qed.
  Lemma tab_of (l : list A) d : l = tab (length l) (fun g => nth (Z.to_nat g) l d).
  Proof.
    apply list_ext. intros i. destruct (Nat.lt_ge_cases i (length l)) as [H|H].
    - rewrite tab_nth by auto. rewrite Nat2Z.id. now apply nth_error_nth'.
    - rewrite !nth_error_ge; auto. now rewrite tab_length.
  Qed.
End Tab.

Lemma map_tab {A B} (h : A -> B) n f : map h (tab n f) = tab n (fun g => h (f g)).
Proof. unfold tab. now rewrite map_map. Qed.

(** One element of a concatenation gains an element. *)
Lemma concat_one {A B} (f f' : A -> list B) (l : list A) k x :
  NoDup l -> In k l -> f' k = x :: f k -> (forall g, In g l -> g <> k -> f' g = f g) ->
  Permutation (concat (map f' l)) (x :: concat (map f l)).
Proof.
  induction l as [|h l IH]; intros N Hk E Ho; [destruct Hk|].
  inversion N as [|? ? Nh Nl]; subst. simpl. destruct Hk as [->|Hk].
  - rewrite E. simpl. apply Permutation_cons; auto. apply Permutation_app_head.
    rewrite (map_ext_in f' f); auto. intros g Hg. apply Ho; [now right|]. intros ->. contradiction.
  - assert (h <> k) by (intros ->; contradiction).
    rewrite (Ho h) by (auto; now left).
    rewrite IH; auto.
    + symmetry. apply Permutation_middle.
    + intros g Hg. apply Ho. now right.
Qed.

(** Writes into the first part of a longer buffer. *)
Lemma writes_enum_prefix {A} (ws : list (Z * A)) spec out :
  Permutation ws (enum 1 0 spec) -> length spec <= length out ->
  writes ws out = Some (spec ++ skipn (length spec) out).
Proof.
  intros P L.
  destruct (writes_total ws out) as (o & E & Lo).
  { intros i x Hi. apply (Permutation_in _ P) in Hi. apply enum_in in Hi as (k & Hk & ->).
    apply nth_error_Some_lt in Hk. lia. }
  rewrite E. f_equal. apply list_ext. intros i.
  assert (N : NoDup (map fst ws)).
  { eapply Permutation_NoDup; [apply Permutation_map, Permutation_sym, P | apply enum_nodup; lia]. }
  rewrite (writes_read _ _ _ N E).
  destruct (Nat.lt_ge_cases i (length spec)) as [Hi|Hi].
  - rewrite nth_error_app1 by auto.
    destruct (nth_error_lt spec i Hi) as [x Hx]. rewrite Hx.
    assert (Hin : In (Z.of_nat i, x) ws).
    { apply (Permutation_in _ (Permutation_sym P)). apply enum_in. exists i. split; auto. lia. }
    destruct (find (fun w => (fst w =? Z.of_nat i)%Z) ws) as [[j y]|] eqn:F.
    + apply find_some in F as [Fi Fe]. simpl in *. apply Z.eqb_eq in Fe. subst j.
      apply (Permutation_in _ P) in Fi. apply enum_in in Fi as (k & Hk & Ek).
      assert (k = i) by lia. subst k. congruence.
    + eapply find_none in F; [|exact Hin]. simpl in F. rewrite Z.eqb_refl in F. discriminate.
  - rewrite nth_error_app2 by auto. rewrite nth_error_skipn.
    destruct (find (fun w => (fst w =? Z.of_nat i)%Z) ws) as [[j y]|] eqn:F.
    + apply find_some in F as [Fi Fe]. simpl in *. apply Z.eqb_eq in Fe. subst j.
      apply (Permutation_in _ P) in Fi. apply enum_in in Fi as (k & Hk & Ek).
      apply nth_error_Some_lt in Hk. lia.
    + f_equal. lia.
Qed.
