(** All columns of all files: the table that the scan builds. *)
From Coq Require Import SpecFloat.
From Verif Require Import Base MemLemmas Inter ConvModel ConvSpec StackModel StackSpec StackProofs Stack2Proofs Stack3Proofs Stack4Proofs Stack5Proofs.
Local Open Scope Z_scope.

Lemma name_eqb_spec a b : reflect (a = b) (name_eqb a b).
Proof. unfold name_eqb. destruct (list_eq_dec Z.eq_dec a b); constructor; auto. Qed.
Lemma name_eqb_refl a : name_eqb a a = true.
Proof. now destruct (name_eqb_spec a a). Qed.
Lemma existsb_name n l : existsb (name_eqb n) l = true <-> In n l.
Proof.
  rewrite existsb_exists. split.
  - intros (x & H & E). now destruct (name_eqb_spec n x); subst.
  - intros H. exists n. split; auto. apply name_eqb_refl.
Qed.

(** ** Names *)
Lemma first_names_in l : forall seen n, In n (first_names seen l) <-> In n l /\ ~ In n seen.
Proof.
  induction l as [|x l IH]; intros seen n; simpl; [tauto|].
  destruct (existsb (name_eqb x) seen) eqn:E.
  - apply existsb_name in E. rewrite IH. split; [tauto|]. intros [[->|H] N]; tauto.
  - assert (N : ~ In x seen) by (rewrite <- existsb_name; congruence). simpl. rewrite IH. simpl. split.
    + intros [->|[H1 H2]]; tauto.
    + intros [[->|H] H2]; auto. destruct (list_eq_dec Z.eq_dec x n); [auto|]. right. tauto.
Qed.
Lemma first_names_nodup l : forall seen, NoDup (first_names seen l).
Proof.
  induction l as [|x l IH]; intros seen; simpl; [constructor|]. destruct (existsb (name_eqb x) seen); auto.
  constructor; auto. rewrite first_names_in. simpl. tauto.
Qed.
Lemma first_names_app l : forall seen r, (forall n, In n r -> In n l \/ In n seen) -> first_names seen (l ++ r) = first_names seen l.
Proof.
  induction l as [|x l IH]; intros seen r H; simpl.
  - induction r as [|y r IHr]; auto. simpl. assert (E : existsb (name_eqb y) seen = true) by (apply existsb_name; destruct (H y (or_introl eq_refl)) as [[]|]; auto).
    rewrite E. apply IHr. intros n Hn. apply H. now right.
  - destruct (existsb (name_eqb x) seen) eqn:E.
    + apply IH. intros n Hn. destruct (H n Hn) as [[->|]|]; auto. right. now apply existsb_name.
    + f_equal. apply IH. intros n Hn. destruct (H n Hn) as [[->|]|]; simpl; auto.
Qed.
Lemma first_names_new l : forall seen n, ~ In n l -> ~ In n seen -> first_names seen (l ++ [n]) = first_names seen l ++ [n].
Proof.
  induction l as [|x l IH]; intros seen n H1 H2; simpl.
  - destruct (existsb (name_eqb n) seen) eqn:E; auto. apply existsb_name in E. tauto.
  - simpl in H1. destruct (existsb (name_eqb x) seen); [|simpl; f_equal]; apply IH; simpl; tauto.
Qed.

(** ** The scan as one pass *)
Local Notation event := (nat * column)%type.
Definition tag (pos : nat) (f : sfile) : list event := map (fun c => (pos, c)) (s_cols f).
Fixpoint events (pos : nat) (fs : list sfile) : list event := match fs with [] => [] | f :: r => tag pos f ++ events (S pos) r end.
Definition add (valid : nat) (t : table) (e : event) : table := AddColumnList valid (fst e) t (snd e).
Lemma scan_events valid fs : forall pos t, scan valid pos fs t = fold_left (add valid) (events pos fs) t.
Proof.
  induction fs as [|f fs IH]; intros pos t; simpl; auto. rewrite IH, fold_left_app. f_equal. unfold tag.
  generalize t as t0. induction (s_cols f) as [|c cs IHc]; intros t0; simpl; auto.
Qed.
Definition e_name (e : event) : name := co_name (snd e).
Lemma events_names fs : forall pos, map e_name (events pos fs) = concat (map (fun f => map co_name (s_cols f)) fs).
Proof. induction fs as [|f fs IH]; intros pos; simpl; auto. rewrite map_app, IH. f_equal. unfold tag. rewrite map_map. reflexivity. Qed.

(* the last array that was seen of a file and a name *)
Definition mine (i : nat) (n : name) (e : event) : bool := (fst e =? i)%nat && name_eqb (e_name e) n.
Definition lookup (ev : list event) (i : nat) (n : name) : option part :=
  fold_left (fun r e => if mine i n e then Some (co_part (snd e)) else r) ev None.
Lemma lookup_snoc ev e i n : lookup (ev ++ [e]) i n = if mine i n e then Some (co_part (snd e)) else lookup ev i n.
Proof. unfold lookup. now rewrite fold_left_app. Qed.

Definition ev_ok (valid : nat) (e : event) : Prop := (fst e < valid)%nat /\ part_ok (co_part (snd e)).

Record king_inv (valid : nat) (ev : list event) (kg : king) : Prop := {
  ki_parts : k_parts kg = map (fun i => lookup ev i (k_name kg)) (seq 0 valid);
  ki_enum : exists c, find (fun c => name_eqb (co_name c) (k_name kg)) (map snd ev) = Some c /\ k_enum kg = co_enum c }.
Record inv (valid : nat) (ev : list event) (t : table) : Prop := {
  in_names : map k_name (t_kings t) = first_names [] (map e_name ev);
  in_kings : Forall (king_inv valid ev) (t_kings t);
  in_pos : 0 <= t_problems t;
  in_fits : t_problems t = 0 -> Forall (fun kg => king_ok (k_block kg) /\ Forall (fits_part (k_block kg)) (k_parts kg)) (t_kings t) }.

Lemma part_king p : part_ok p -> king_ok (fst p).
Proof. intros H. split; [apply (po_type _ H)|apply (po_dims _ H)]. Qed.
Lemma problems_pos o c : 0 <= problems o c.
Proof. unfold problems. destruct (b_c o || b_f o), (c_rot c), (c_ok c); lia. Qed.
Lemma problems_ok o c : problems o c = 0 -> c_ok c = true /\ c_rot c = false.
Proof. unfold problems. destruct (b_c o || b_f o), (c_rot c), (c_ok c); lia || auto. Qed.

Lemma some_inj {A : Type} (a b : A) : Some a = Some b -> a = b.
Proof. congruence. Qed.
Lemma add_to_some ks pos c ks' p : add_to ks pos c = Some (ks', p) -> exists l kg r m a, ks = l ++ kg :: r /\ k_name kg = co_name c /\
  IsArrayCompatible (k_block kg) (fst (co_part c)) true = (m, a) /\
  ks' = l ++ King (k_name kg) (k_enum kg) m (upd (k_parts kg) pos (Some (co_part c))) :: r /\ p = problems (fst (co_part c)) a.
Proof.
  revert ks'. induction ks as [|k ks IH]; intros ks' H; simpl in H; [discriminate|].
  destruct (name_eqb_spec (k_name k) (co_name c)) as [E|E].
  - destruct (IsArrayCompatible (k_block k) (fst (co_part c)) true) as [m a] eqn:C. apply some_inj in H. apply pair_equal_spec in H as [<- <-].
    exists [], k, ks, m, a. auto.
  - destruct (add_to ks pos c) as [[ks2 p2]|]; [|discriminate]. apply some_inj in H. apply pair_equal_spec in H as [<- <-].
    destruct (IH _ eq_refl) as (l & kg & r & m & a & -> & H1 & H2 & -> & H3). exists (k :: l), kg, r, m, a. auto.
Qed.
Lemma add_to_none ks pos c : add_to ks pos c = None -> ~ In (co_name c) (map k_name ks).
Proof.
  induction ks as [|k ks IH]; simpl; auto. destruct (name_eqb_spec (k_name k) (co_name c)) as [E|E].
  - now destruct (IsArrayCompatible (k_block k) (fst (co_part c)) true).
  - destruct (add_to ks pos c) as [[ks2 p2]|]; [discriminate|]. intros _ [H|H]; auto. now apply IH.
Qed.

Lemma find_app {A : Type} (f : A -> bool) l r : find f (l ++ r) = match find f l with Some x => Some x | None => find f r end.
Proof. induction l as [|x l IH]; simpl; auto. destruct (f x); auto. Qed.

Lemma upd_map {A : Type} (g : nat -> A) n pos x : upd (map g (seq 0 n)) pos x = map (fun i => if (pos =? i)%nat then x else g i) (seq 0 n).
Proof.
  apply list_ext. intros i. rewrite nth_error_upd, map_length, seq_length, !nth_error_map, !nth_error_seq. cbn [Nat.add].
  destruct (Nat.eqb_spec pos i) as [->|N]; cbn [andb].
  - destruct (i <? n)%nat; auto. simpl. now rewrite Nat.eqb_refl.
  - destruct (i <? n)%nat; auto. simpl. destruct (Nat.eqb_spec pos i); congruence.
Qed.

Lemma upd_in {A : Type} (l : list A) i x y : In y (upd l i x) -> y = x \/ In y l.
Proof.
  intros H. apply In_nth_error in H as [j H]. rewrite nth_error_upd in H. destruct ((i =? j)%nat && (i <? length l)%nat).
  - inversion H. auto.
  - right. eapply nth_error_In; eauto.
Qed.

Lemma king_other valid ev e kg : k_name kg <> e_name e -> king_inv valid ev kg -> king_inv valid (ev ++ [e]) kg.
Proof.
  intros N [H1 (c & H2 & H3)]. constructor.
  - rewrite H1. apply map_ext. intros i. rewrite lookup_snoc. unfold mine. destruct (name_eqb_spec (e_name e) (k_name kg)); [congruence|]. now rewrite andb_false_r.
  - exists c. rewrite map_app, find_app, H2. auto.
Qed.

Lemma inv_step valid ev t e : ev_ok valid e -> inv valid ev t -> inv valid (ev ++ [e]) (add valid t e).
Proof.
  intros [Hp Hok] [N K P Ft]. destruct e as [pos c]. cbn [fst snd] in *. unfold add, AddColumnList. cbn [fst snd].
  pose proof (first_names_nodup (map e_name ev) []) as ND. rewrite <- N in ND.
  destruct (add_to (t_kings t) pos c) as [[ks p]|] eqn:A.
  - apply add_to_some in A as (l & kg & r & m & a & Ek & Nk & C & -> & ->). rewrite Ek in *.
    rewrite map_app in ND. cbn [map] in ND. pose proof (NoDup_remove_2 _ _ _ ND) as Nin. rewrite <- map_app in Nin.
    assert (Oth : forall g, In g (l ++ r) -> k_name g <> co_name c). { intros g Hg E. apply Nin. rewrite Nk, <- E. now apply in_map. }
    apply Forall_app in K as [K1 K2]. inversion K2 as [|x y Kg Kr]; subst x y.
    constructor; cbn [t_kings t_problems].
    + rewrite map_app. cbn [map k_name]. rewrite <- (map_cons k_name), <- map_app, N, map_app. symmetry. apply first_names_app.
      intros n [<-|[]]. left. apply (first_names_in _ [] _). rewrite <- N, map_app. apply in_or_app. right. left. auto.
    + apply Forall_app. split; [|constructor].
      * apply Forall_forall. intros g Hg. rewrite Forall_forall in K1. apply king_other; auto. apply Oth. apply in_or_app. auto.
      * destruct Kg as [G1 (c0 & G2 & G3)]. constructor; cbn [k_name k_parts k_enum].
        -- rewrite G1, upd_map. apply map_ext. intros i. rewrite lookup_snoc. unfold mine. cbn [fst snd e_name]. unfold e_name. cbn [snd]. rewrite Nk, name_eqb_refl, andb_true_r. reflexivity.
        -- exists c0. rewrite map_app, find_app, G2. auto.
      * apply Forall_forall. intros g Hg. rewrite Forall_forall in Kr. apply king_other; auto. apply Oth. apply in_or_app. auto.
    + pose proof (problems_pos (fst (co_part c)) a). lia.
    + intros E. pose proof (problems_pos (fst (co_part c)) a) as Pp. assert (E1 : t_problems t = 0) by lia. assert (E2 : problems (fst (co_part c)) a = 0) by lia.
      specialize (Ft E1). apply Forall_app in Ft as [Fl Fr]. inversion Fr as [|x y [Fg1 Fg2] Fr']; subst x y. apply Forall_app. split; auto. constructor; auto. cbn [k_block k_parts].
      apply problems_ok in E2 as [Ok _].
      destruct (compat_fix _ _ _ _ Fg1 (part_king _ Hok) C Ok) as (Q1 & Q2 & Q3). split; auto.
      apply Forall_forall. intros q Hq. apply upd_in in Hq as [->|Hq].
      * simpl. destruct (co_part c) as [o d] eqn:Ec. split; auto. apply (part_king _ Hok).
      * rewrite Forall_forall in Fg2. specialize (Fg2 q Hq). destruct q as [[o d]|]; auto. simpl in *. destruct Fg2. auto.
  - apply add_to_none in A.
    assert (Nn : ~ In (co_name c) (map e_name ev)). { intros H. apply A. rewrite N. apply first_names_in. auto. }
    constructor; cbn [t_kings t_problems].
    + rewrite !map_app, N. cbn [map k_name]. unfold e_name at 3. cbn [snd]. symmetry. apply first_names_new; auto.
    + apply Forall_app. split.
      * apply Forall_forall. intros g Hg. rewrite Forall_forall in K. apply king_other; auto. unfold e_name. cbn [snd]. intros E. apply A. rewrite <- E. now apply in_map.
      * constructor; auto. constructor; cbn [k_name k_parts k_enum].
        -- replace (repeat None valid) with (map (fun _ : nat => @None part) (seq 0 valid)).
           2:{ rewrite <- (seq_length valid 0) at 2. generalize (seq 0 valid) as s. induction s as [|x s IH]; simpl; congruence. }
           rewrite upd_map. apply map_ext. intros i. rewrite lookup_snoc. unfold mine, e_name. cbn [fst snd]. rewrite name_eqb_refl, andb_true_r.
           destruct (pos =? i)%nat; auto. symmetry. clear - Nn. unfold lookup.
           assert (G : forall r, r = None -> fold_left (fun (r : option part) (e : event) => if mine i (co_name c) e then Some (co_part (snd e)) else r) ev r = None); [|now apply G].
           intros r0 ->. induction ev as [|e ev IH]; auto. simpl in *. unfold mine at 2. destruct (name_eqb_spec (e_name e) (co_name c)); [tauto|]. rewrite andb_false_r. apply IH. tauto.
        -- exists c. rewrite map_app, find_app. split; auto.
           assert (E : find (fun c0 => name_eqb (co_name c0) (co_name c)) (map snd ev) = None).
           { clear - Nn. induction ev as [|e ev IH]; auto. simpl in *. destruct (name_eqb_spec (co_name (snd e)) (co_name c)); [tauto|]. apply IH. tauto. }
           rewrite E. simpl. now rewrite name_eqb_refl.
    + pose proof (problems_pos (fst (co_part c)) (Cm true false false false)). lia.
    + intros E. pose proof (problems_pos (fst (co_part c)) (Cm true false false false)) as Pp. assert (E1 : t_problems t = 0) by lia.
      apply Forall_app. split; auto. constructor; auto. cbn [k_block k_parts]. split. { now apply part_king. }
      apply Forall_forall. intros q Hq. apply upd_in in Hq as [->|Hq].
      * simpl. pose proof (part_king _ Hok) as Ko. destruct (co_part c) as [o d]. cbn [fst] in *. destruct Ko as [To Do]. split; auto. split; auto.
        destruct To as [(u & U1 & U2)|To]; [left; exists u, u; pose proof (below_refl u); auto 7|right]. split; auto. split; auto. left. split; auto. lia.
      * apply repeat_spec in Hq. subst q. simpl. auto.
Qed.
Lemma inv_all valid ev : Forall (ev_ok valid) ev -> inv valid ev (fold_left (add valid) ev (Tb [] 0)).
Proof.
  induction ev as [|e ev IH] using rev_ind; intros H.
  - constructor; simpl; auto. lia.
  - apply Forall_app in H as [H1 H2]. rewrite fold_left_app. simpl. apply inv_step; auto. now inversion H2.
Qed.

(** ** What a file has *)
Lemma lookup_app a b i n : lookup (a ++ b) i n = match lookup b i n with Some p => Some p | None => lookup a i n end.
Proof.
  induction b as [|e b IH] using rev_ind. { rewrite app_nil_r. reflexivity. }
  rewrite app_assoc, !lookup_snoc, IH. destruct (mine i n e); auto.
Qed.
Lemma lookup_other ev i n : (forall e, In e ev -> fst e <> i) -> lookup ev i n = None.
Proof.
  induction ev as [|e ev IH] using rev_ind; intros H; auto. rewrite lookup_snoc. unfold mine.
  assert (fst e <> i) by (apply H; apply in_or_app; right; now left). replace (fst e =? i)%nat with false by (symmetry; now apply Nat.eqb_neq).
  cbn [andb]. apply IH. intros x Hx. apply H. apply in_or_app. auto.
Qed.
Lemma lookup_tag pos f n : NoDup (map co_name (s_cols f)) -> lookup (tag pos f) pos n = part_of n f.
Proof.
  unfold tag, part_of. induction (s_cols f) as [|c cs IH]; intros H; auto. inversion H as [|x y H1 H2]; subst. cbn [map find].
  change (?a :: ?b) with ([a] ++ b). rewrite lookup_app, IH by auto.
  unfold lookup at 1. simpl. unfold mine, e_name. cbn [fst snd]. rewrite Nat.eqb_refl. cbn [andb].
  destruct (name_eqb_spec (co_name c) n) as [E|E].
  - destruct (find (fun c0 => name_eqb (co_name c0) n) cs) as [c'|] eqn:F; auto. exfalso. apply find_some in F as [F1 F2]. destruct (name_eqb_spec (co_name c') n); [|discriminate].
    apply H1. rewrite E, <- e. now apply in_map.
  - now destruct (find (fun c0 => name_eqb (co_name c0) n) cs).
Qed.
Lemma events_pos fs : forall pos e, In e (events pos fs) -> (pos <= fst e < pos + length fs)%nat.
Proof.
  induction fs as [|f fs IH]; intros pos e H; simpl in *; [tauto|]. apply in_app_or in H as [H|H].
  - unfold tag in H. apply in_map_iff in H as (c & <- & _). simpl. lia.
  - apply IH in H. lia.
Qed.
Lemma lookup_events fs n : Forall file_ok fs -> forall pos, map (fun i => lookup (events pos fs) i n) (seq pos (length fs)) = map (part_of n) fs.
Proof.
  induction 1 as [|f fs Hf H IH]; intros pos; auto. cbn [length seq map events]. f_equal.
  - rewrite lookup_app. rewrite (lookup_other (events (S pos) fs)). { apply lookup_tag. apply (fo_names _ Hf). }
    intros e He. apply events_pos in He. lia.
  - rewrite <- (IH (S pos)). apply map_ext_in. intros i Hi. apply in_seq in Hi. rewrite lookup_app. destruct (lookup (events (S pos) fs) i n); auto.
    apply lookup_other. intros e He. unfold tag in He. apply in_map_iff in He as (c & <- & _). simpl. lia.
Qed.
Lemma events_ok fs : Forall file_ok fs -> forall pos valid, (pos + length fs <= valid)%nat -> Forall (ev_ok valid) (events pos fs).
Proof.
  induction 1 as [|f fs Hf H IH]; intros pos valid L; cbn [events length] in *; auto. apply Forall_app. split.
  - unfold tag. apply Forall_map. pose proof (fo_parts _ Hf) as P. eapply Forall_impl; [|exact P]. intros c Hc. split; simpl; auto. lia.
  - apply IH. lia.
Qed.

(* the table of all files *)
Record king_good (fs : list sfile) (kg : king) : Prop := {
  kg_parts : k_parts kg = map (part_of (k_name kg)) fs;
  kg_enum : exists c, find (fun c => name_eqb (co_name c) (k_name kg)) (concat (map s_cols fs)) = Some c /\ k_enum kg = co_enum c;
  kg_king : king_ok (k_block kg);
  kg_fits : Forall (fits_part (k_block kg)) (k_parts kg) }.
Lemma events_cols fs : forall pos, map snd (events pos fs) = concat (map s_cols fs).
Proof. induction fs as [|f fs IH]; intros pos; simpl; auto. rewrite map_app, IH. f_equal. unfold tag. rewrite map_map. apply map_id. Qed.
Lemma scan_ok fs : Forall file_ok fs -> t_problems (scan (length fs) 0 fs (Tb [] 0)) = 0 ->
  map k_name (t_kings (scan (length fs) 0 fs (Tb [] 0))) = all_names fs /\ Forall (king_good fs) (t_kings (scan (length fs) 0 fs (Tb [] 0))).
Proof.
  intros Hf P. rewrite scan_events in *. destruct (inv_all (length fs) (events 0 fs)) as [N K _ Ft]. { apply events_ok; auto. }
  split. { rewrite N. unfold all_names. now rewrite events_names. }
  specialize (Ft P). apply Forall_forall. intros kg Hk. rewrite Forall_forall in K, Ft. destruct (K kg Hk) as [K1 K2]. destruct (Ft kg Hk) as [F1 F2].
  constructor; auto.
  - rewrite K1. apply lookup_events. auto.
  - now rewrite events_cols in K2.
Qed.
