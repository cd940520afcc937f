(** Grouping by another key. *)
From Verif Require Import Base Mem MemLemmas HashModel HashSpec HashProofs HashMember HashGroup.
Local Open Scope Z_scope.

Section Keys.
  Context {A B : Type} (f : A -> B).
  Definition on_key (r : A * bool) : B * bool := (f (fst r), snd r).
  Lemma kept_on rows i k : kept rows i k -> kept (map on_key rows) i (f k).
  Proof. unfold kept. intros H. rewrite nth_error_map, H. reflexivity. Qed.
  Lemma kept_off rows i b : kept (map on_key rows) i b -> exists k, b = f k /\ kept rows i k.
  Proof. unfold kept. rewrite nth_error_map. destruct (nth_error rows i) as [[k v]|]; cbn; intros H; [|discriminate]. injection H as <- ->. eauto. Qed.
  Context (rows : list (A * bool)) (inj : forall x y, In x (map fst rows) -> In y (map fst rows) -> f x = f y -> x = y).
  Lemma kept_in i k : kept rows i k -> In k (map fst rows).
  Proof using. intros H. apply in_map_iff. exists (k, true). split; [reflexivity|]. exact (nth_error_In _ _ H). Qed.
  Lemma first_off i b : first_row (map on_key rows) i b -> exists k, b = f k /\ first_row rows i k.
  Proof using.
    intros (H & N). apply kept_off in H as (k & -> & H). exists k. split; [reflexivity|]. split; [exact H|]. intros j L K. apply (N j L). now apply kept_on.
  Qed.
  Lemma grouped_on idx first : grouped (map on_key rows) idx first -> grouped rows idx first.
  Proof using inj.
    intros [G1 G2 G3 G4 G5]. split.
    - now rewrite map_length in G1.
    - intros i k H. apply (G2 i (f k)). rewrite nth_error_map, H. reflexivity.
    - intros i k H. destruct (G3 i (f k) (kept_on _ _ _ H)) as (g & r & E & F & L & X). exists g, r. split; [exact E|]. split; [|now split].
      destruct (first_off _ _ F) as (k' & E' & F'). assert (k = k') as -> by (apply inj; [eapply kept_in; exact H|eapply kept_in; apply F'|exact E']). exact F'.
    - intros g r H. destruct (G4 g r H) as (i & b & -> & F & X). destruct (first_off _ _ F) as (k & _ & F'). exists i, k. now split.
    - exact G5.
  Qed.
End Keys.
Lemma grouped_parts_on {A B} (f : A -> B) cut rows idx first counts :
  (forall x y, In x (map fst rows) -> In y (map fst rows) -> f x = f y -> x = y) ->
  grouped_parts cut (map (on_key f) rows) idx first counts -> grouped_parts cut rows idx first counts.
Proof.
  intros inj (parts & F & R). exists parts. split; [|exact R]. clear R. induction F as [|p r ps rs G F IH]; constructor; [|exact IH].
  apply (grouped_on f).
  - intros x y Hx Hy. apply inj; [clear Hy; rename Hx into H; rename x into z|clear Hx; rename Hy into H; rename y into z];
      apply in_map_iff in H as (z' & <- & H); apply in_map; eapply part_incl; exact H.
  - unfold part in *. rewrite skipn_map, firstn_map in G. exact G.
Qed.

