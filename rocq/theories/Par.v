(** Elementwise threaded loops: each call of the callback fills the output elements of its own chunk. *)
From Verif Require Import Base MemLemmas.

(** All results, or None if one of the elements fails (a read outside a buffer). *)
Fixpoint all_some {A} (l : list (option A)) : option (list A) :=
  match l with
  | [] => Some []
  | Some x :: l' => match all_some l' with Some y => Some (x :: y) | None => None end
  | None :: _ => None
  end.

Section Par.
  Context {A : Type}.
  (** Element [i] of the output receives [f i], written by the call whose chunk contains [i]. *)
  Definition par_map (ord : sched) (threaded : bool) (c n : nat) (f : nat -> option A) (d : A) : option (list A) :=
    match all_some (concat (map (fun call : nat * nat =>
            map (fun i => option_map (fun x => (Z.of_nat i, x)) (f i)) (seq (fst call) (snd call)))
            (chunk_calls threaded c n))) with
    | Some ws => writes (ord _ ws) (repeat d n)
    | None => None
    end.
End Par.

Lemma all_some_map {A B} (f : A -> option B) g l : (forall x, In x l -> f x = Some (g x)) -> all_some (map f l) = Some (map g l).
Proof.
  induction l as [|x l IH]; simpl; intros H; auto.
  rewrite (H x) by auto. rewrite IH; auto.
Qed.

Lemma all_some_none {A B} (f : A -> option B) l x : In x l -> f x = None -> all_some (map f l) = None.
Proof.
  induction l as [|y l IH]; simpl; intros H Hx; [tauto|].
  destruct H as [->|H].
  - now rewrite Hx.
  - rewrite IH by auto. now destruct (f y).
Qed.

Lemma all_some_inv {A B} (f : A -> option B) l r : all_some (map f l) = Some r -> Forall2 (fun x y => f x = Some y) l r.
Proof.
  revert r; induction l as [|x l IH]; simpl; intros r H.
  - inversion H. constructor.
  - destruct (f x) eqn:E; [|discriminate]. destruct (all_some (map f l)); [|discriminate]. inversion H. constructor; auto.
Qed.

Lemma chunk_calls_seq thr c n : 0 < c -> concat (map (fun p => seq (fst p) (snd p)) (chunk_calls thr c n)) = seq 0 n.
Proof. intros Hc. destruct thr; simpl; [now apply chunks_seq | apply app_nil_r]. Qed.

Lemma chunk_calls_map {B} thr c n (g : nat -> B) : 0 < c ->
  concat (map (fun call : nat * nat => map g (seq (fst call) (snd call))) (chunk_calls thr c n)) = map g (seq 0 n).
Proof.
  intros Hc. rewrite <- (chunk_calls_seq thr c n Hc). rewrite concat_map, map_map. reflexivity.
Qed.

Lemma enum_map_seq {B} (g : nat -> B) n : forall s o, o = Z.of_nat s -> enum 1 o (map g (seq s n)) = map (fun i => (Z.of_nat i, g i)) (seq s n).
Proof. induction n as [|n IH]; simpl; intros s o ->; auto. f_equal. apply IH. lia. Qed.

Lemma par_map_some {A} ord thr c n (f : nat -> option A) g d : fair ord -> 0 < c ->
  (forall i, i < n -> f i = Some (g i)) -> par_map ord thr c n f d = Some (map g (seq 0 n)).
Proof.
  intros Ho Hc H. unfold par_map. rewrite chunk_calls_map by auto.
  rewrite (all_some_map _ (fun i => (Z.of_nat i, g i))).
  - apply writes_enum.
    + rewrite enum_map_seq by reflexivity. apply Ho.
    + now rewrite repeat_length, map_length, seq_length.
  - intros i Hi. apply in_seq in Hi. rewrite H by lia. reflexivity.
Qed.

Lemma par_map_none {A} ord thr c n (f : nat -> option A) d i : 0 < c -> i < n -> f i = None -> par_map ord thr c n f d = None.
Proof.
  intros Hc Hi E. unfold par_map. rewrite chunk_calls_map by auto.
  rewrite (all_some_none _ _ i); auto.
  - apply in_seq; lia.
  - now rewrite E.
Qed.

(** Reading a list element by element gives the list back. *)
Lemma map_nth_seq {A} (l : list A) d : map (fun i => nth i l d) (seq 0 (length l)) = l.
Proof.
  apply list_ext. intros i. rewrite nth_error_map, nth_error_seq.
  destruct (Nat.ltb_spec i (length l)); simpl.
  - symmetry. now apply nth_error_nth'.
  - symmetry. now apply nth_error_None.
Qed.

Lemma map_map_nth {A B} (f : A -> B) (l : list A) d : map (fun i => f (nth i l d)) (seq 0 (length l)) = map f l.
Proof. transitivity (map f (map (fun i => nth i l d) (seq 0 (length l)))); [now rewrite map_map | now rewrite map_nth_seq]. Qed.

Lemma par_map_list {A B} ord thr c (l : list A) (f : A -> option B) g d (dx : A) : fair ord -> 0 < c ->
  (forall x, In x l -> f x = Some (g x)) ->
  par_map ord thr c (length l) (fun i => match nth_error l i with Some x => f x | None => None end) d = Some (map g l).
Proof.
  intros Ho Hc H. rewrite (par_map_some ord thr c _ _ (fun i => g (nth i l dx))); auto.
  - f_equal. apply map_map_nth.
  - intros i Hi. rewrite (nth_error_nth' l dx Hi). apply H, nth_In; auto.
Qed.
