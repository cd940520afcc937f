(** Proofs about MultiKeyRolling from its arguments to its results. *)
From Verif Require Import Base Mem MemLemmas AllModel EaModel EaSpec.
From Verif Require Import HashModel HashTable HashSpec HashProofs HashMember HashGroup HashLinks HashLinks2.
From Verif Require Import MkModel MkSpec MkProofs Mk2Proofs Mk3Proofs RkModel RkSpec.
Local Open Scope Z_scope.

Lemma find_put_same h p x r : find h p = Some x -> find (put h p r) p = Some r.
Proof. induction h as [|(q, s) h IH]; cbn [find put]; [discriminate|]. destruct (q =? p) eqn:E; cbn [find]; rewrite E; [reflexivity|exact IH]. Qed.
Lemma find_put_other h p q r : p <> q -> find (put h p r) q = find h q.
Proof.
  intros N. induction h as [|(o, s) h IH]; cbn [find put]; [reflexivity|]. destruct (Z.eqb_spec o p) as [->|M]; cbn [find]; [|now rewrite IH].
  now rewrite (proj2 (Z.eqb_neq _ _) N).
Qed.
Lemma put_length h p r : length (put h p r) = length h.
Proof. induction h as [|(q, s) h IH]; cbn [put]; [reflexivity|]. destruct (q =? p); cbn [length]; [reflexivity|now rewrite IH]. Qed.
Lemma find_drop_other h p q : p <> q -> find (drop h p) q = find h q.
Proof.
  intros N. induction h as [|(o, s) h IH]; cbn [find drop]; [reflexivity|]. destruct (Z.eqb_spec o p) as [->|M]; cbn [find]; [|now rewrite IH].
  now rewrite (proj2 (Z.eqb_neq _ _) N).
Qed.

Lemma keys_prepared n k : keys_ok n k -> exists core, prepare_keys k = Done (Some {| p_rows := map (@concat Z) (table n (cols_of k)); p_width := total_size (cols_of k);
  p_core := core; p_filter := None; p_object := true |}).
Proof.
  intros (OK & L). destruct (prepare_right n (cols_of k) PNone OK) as (core & E & _). exists core. rewrite (flat_table n (cols_of k)) in E. cbn [mask_vals] in E.
  destruct k as [cols|cols]; cbn [cols_of] in *.
  - assert (third_filter cols = PNone) as T by (destruct cols as [|? [|? [|? ?]]]; cbn in L; try reflexivity; lia).
    unfold prepare_keys. destruct cols as [|c cols]; [destruct OK as (_ & N & _); contradiction|]. rewrite T, E. reflexivity.
  - cbn [prepare_keys]. rewrite E. reflexivity.
Qed.
Lemma row_sizes n cols i : call_ok n cols PNone -> (i < Z.to_nat n)%nat -> map (fun x => Z.of_nat (length x)) (row_at cols i) = map size_of cols.
Proof.
  intros (_ & _ & HC & _) Hi. unfold row_at. rewrite map_map. apply map_ext_in. intros c Hc. rewrite Forall_forall in HC. specialize (HC c Hc).
  destruct c as [|size a|]; cbn [column_ok] in HC; try contradiction. destruct HC as (_ & _ & _ & HA & _ & F). cbn [items size_of]. rewrite Forall_forall in F. apply F.
  apply nth_In. unfold arg_vals. rewrite map_length, seq_length, (proj1 HA). lia.
Qed.
Lemma pairs_back {X Y} (l : list (X * Y)) : combine (map fst l) (map snd l) = l.
Proof. induction l as [|(x, y) l IH]; cbn; [reflexivity|now rewrite IH]. Qed.
Lemma combine_snoc {X Y} : forall (a : list X) (b : list Y) x y, length a = length b -> combine (a ++ [x]) (b ++ [y]) = combine a b ++ [(x, y)].
Proof. induction a as [|u a IH]; intros [|v b] x y L; try discriminate; [reflexivity|]. injection L as L. cbn. now rewrite IH. Qed.

Section Play.
  Context (crc_bytes : list Z -> Z) (address : objects -> Z) (junk : nat -> Z) (AD : addresses_ok address).
  Context (script : list batch) (OK : script_ok script) (h0 : objects) (FEW : Z.of_nat (length h0) + Z.of_nat (length script) < 2 ^ 32).
  Notation H := (row_hash crc_bytes).
  Notation flat := (map (@concat Z)).

  Definition stream_inv (P : list batch) (outs : list (list Z * list Z * Z)) (h : objects) (names : list (nat * Z)) (who : nat) : Prop :=
    match known who names with
    | None => of_stream who P = []
    | Some p => p <> 0 /\ - 2 ^ 63 <= p < 2 ^ 63 /\ find h0 p = None /\ exists w size t nu,
        find h p = Some {| o_table := Some (w, size, t); o_unique := nu |} /\ rinv H size (flat (rows_of who P)) (counted (results_of who P outs)) (t, nu) /\
        nu = last_number (results_of who P outs) /\ 0 < size /\ fewer_than size (rows_of who script) /\
        (forall b, In b script -> b_stream b = who -> total_size (cols_of (b_keys b)) = w)
    end.
  Definition inv (P : list batch) (outs : list (list Z * list Z * Z)) (h : objects) (names : list (nat * Z)) : Prop :=
    length outs = length P /\ (forall who, stream_inv P outs h names who) /\
    (forall w1 w2 p, known w1 names = Some p -> known w2 names = Some p -> w1 = w2) /\ (forall p r, find h0 p = Some r -> find h p = Some r) /\
    (length h <= length h0 + length P)%nat.

  Lemma of_snoc who P b : of_stream who (P ++ [b]) = of_stream who P ++ (if Nat.eqb (b_stream b) who then [b] else []).
  Proof. unfold of_stream. rewrite filter_app. cbn [filter]. destruct (Nat.eqb _ _); reflexivity. Qed.
  Lemma rows_snoc who P b : rows_of who (P ++ [b]) = rows_of who P ++ (if Nat.eqb (b_stream b) who then batch_rows b else []).
  Proof. unfold rows_of. rewrite of_snoc, map_app, concat_app. destruct (Nat.eqb _ _); cbn [map concat]; now rewrite ?app_nil_r. Qed.
  Lemma results_snoc who P outs b o : length outs = length P -> results_of who (P ++ [b]) (outs ++ [o]) = results_of who P outs ++ (if Nat.eqb (b_stream b) who then [o] else []).
  Proof.
    intros L. unfold results_of. rewrite combine_snoc by now symmetry. rewrite filter_app, map_app. cbn [filter fst]. destruct (Nat.eqb _ _); reflexivity.
  Qed.
  Lemma counted_snoc outs os nu : counted (outs ++ [(map fst os, map snd os, nu)]) = counted outs ++ os.
  Proof. unfold counted. rewrite map_app, concat_app. cbn [map concat fst snd]. now rewrite pairs_back, app_nil_r. Qed.
  Lemma last_snoc outs o : last_number (outs ++ [o]) = snd o.
  Proof. unfold last_number. rewrite map_app. cbn [map]. apply last_last. Qed.
  Lemma rows_split who P b rest : script = P ++ b :: rest -> b_stream b = who -> rows_of who script = rows_of who P ++ batch_rows b ++ rows_of who rest.
  Proof.
    intros E W. rewrite E. unfold rows_of, of_stream. rewrite filter_app, map_app, concat_app. cbn [filter]. rewrite W, Nat.eqb_refl. reflexivity.
  Qed.

  (* one call for the stream of [b], on a table that is right so far *)
  Lemma roll_right P b rest w size (t : slots) nu os : script = P ++ b :: rest -> rinv H size (flat (rows_of (b_stream b) P)) os (t, nu) -> 0 < size ->
    fewer_than size (rows_of (b_stream b) script) -> total_size (cols_of (b_keys b)) = w -> w <= 16 ->
    exists (t' : slots) nu' os', roll crc_bytes junk {| o_table := Some (w, size, t : slots); o_unique := nu |} w (flat (batch_rows b)) =
      Done ({| o_table := Some (w, size, t'); o_unique := nu' |}, map fst os', map snd os') /\
      rinv H size (flat (rows_of (b_stream b) P ++ batch_rows b)) (os ++ os') (t', nu').
  Proof using.
    intros E R S F EW W. unfold roll. rewrite (proj2 (Z.ltb_ge _ _)) by exact W. cbn [o_table o_unique]. rewrite Z.eqb_refl. cbn [negb].
    pose proof (rolling_ok bytes_eqb bytes_eqb_eq H size (flat (rows_of (b_stream b) script)) (fun x _ => mask_range size _ S) (flat (batch_rows b))
      (flat (rows_of (b_stream b) P)) os (t, nu) (flat (rows_of (b_stream b) rest))) as Q.
    rewrite (rows_split _ P b rest E eq_refl), !map_app in Q. specialize (Q eq_refl R).
    destruct (MultiKeyRolling _ _ _ _ _) as [[[t' nu'] os']| |]; cbn [okt fst snd] in Q.
    - exists t', nu', os'. split; [reflexivity|]. now rewrite map_app.
    - exfalso. apply Q. rewrite <- !map_app. apply fewer_map. now rewrite <- (rows_split _ P b rest E eq_refl).
    - contradiction.
  Qed.
  Lemma new_inv size : 0 < size -> rinv H size [] [] (new_table size, 0).
  Proof using.
    intros S. split; cbn [fst snd].
    - apply new_length. now apply Z.lt_le_incl.
    - apply tinv_new.
    - exists []. split; [split; [apply grouped_nil|apply column_nil]|]. split; auto. intros p Hp. now apply somes_new in Hp.
    - intros x [].
  Qed.
  Lemma width_same b c : In b script -> In c script -> b_stream b = b_stream c -> total_size (cols_of (b_keys b)) = total_size (cols_of (b_keys c)).
  Proof using OK. intros Hb Hc E. unfold total_size. now rewrite (proj1 (proj2 OK) b c Hb Hc E). Qed.

  Lemma play_step P b rest outs h names : script = P ++ b :: rest -> inv P outs h names ->
    exists idx count nu p h', MultiKeyRollingCall crc_bytes address junk h (b_keys b) (b_hint b) (known (b_stream b) names) = Done (Some (idx, count, nu, p), h') /\
      inv (P ++ [b]) (outs ++ [(idx, count, nu)]) h' ((b_stream b, p) :: names).
  Proof using OK AD FEW.
    intros E (L & SI & IJ & KP & LH). assert (Hb : In b script) by (rewrite E; apply in_elt). destruct (proj1 OK b Hb) as (HK & W16 & HI & H1).
    destruct (keys_prepared _ _ HK) as (core & EP). pose proof (SI (b_stream b)) as SB. unfold stream_inv in SB.
    assert (I64 : forall z, - 2 ^ 63 <= z < 2 ^ 63 -> int64_ok z = true). { intros z Hz. unfold int64_ok. now rewrite (proj2 (Z.leb_le _ _)), (proj2 (Z.ltb_lt _ _)) by lia. }
    assert (LR : Z.of_nat (length (flat (batch_rows b))) = b_rows b).
    { unfold batch_rows, table. rewrite !map_length, seq_length. destruct HK as ((HN & _) & _). lia. }
    fold (batch_rows b) in EP. unfold MultiKeyRollingCall. rewrite (I64 _ HI).
    assert (WS : forall c, In c script -> b_stream c = b_stream b -> total_size (cols_of (b_keys c)) = total_size (cols_of (b_keys b))) by (intros c Hc Ec; now apply width_same).
    assert (Final : forall t' nu' os' size p h', p <> 0 -> - 2 ^ 63 <= p < 2 ^ 63 -> find h0 p = None -> 0 < size -> fewer_than size (rows_of (b_stream b) script) ->
      rinv H size (flat (rows_of (b_stream b) P ++ batch_rows b)) (counted (results_of (b_stream b) P outs) ++ os') (t', nu') ->
      find h' p = Some {| o_table := Some (total_size (cols_of (b_keys b)), size, t'); o_unique := nu' |} ->
      (forall q, q <> p -> find h' q = find h q) -> (forall w q, w <> b_stream b -> known w names = Some q -> q <> p) -> (length h' <= S (length h))%nat ->
      inv (P ++ [b]) (outs ++ [(map fst os', map snd os', nu')]) h' ((b_stream b, p) :: names)).
    { intros t' nu' os' size p h' N0 R64 F0 SZ FE RI FD FO DI LH'. split; [rewrite !app_length, L; reflexivity|]. split; [|split; [|split]].
      - intros who. specialize (SI who). unfold stream_inv in *. cbn [known]. rewrite rows_snoc, of_snoc, results_snoc by exact L. destruct (Nat.eqb_spec (b_stream b) who) as [<-|NW].
        + split; [exact N0|]. split; [exact R64|]. split; [exact F0|]. do 4 eexists. split; [exact FD|]. rewrite counted_snoc, last_snoc. split; [exact RI|]. split; [reflexivity|].
          split; [exact SZ|]. split; [exact FE|exact WS].
        + rewrite !app_nil_r. destruct (known who names) as [q|] eqn:EK; [|exact SI]. destruct SI as (A & B & C & w & sz & t & nu & D & R). split; [exact A|]. split; [exact B|]. split; [exact C|].
          exists w, sz, t, nu. split; [|exact R]. rewrite FO; [exact D|]. apply (DI who); [now intros ->|exact EK].
      - intros w1 w2 q. cbn [known]. destruct (Nat.eqb_spec (b_stream b) w1) as [<-|N1], (Nat.eqb_spec (b_stream b) w2) as [<-|N2]; [reflexivity| | |apply IJ].
        + intros [= <-] K2. exfalso. exact (DI w2 p (fun e => N2 (eq_sym e)) K2 eq_refl).
        + intros K1 [= <-]. exfalso. exact (DI w1 p (fun e => N1 (eq_sym e)) K1 eq_refl).
      - intros q r Hq. rewrite FO; [now apply KP|]. intros ->. congruence.
      - rewrite app_length. cbn [length]. lia. }
    destruct (known (b_stream b) names) as [p|] eqn:EK.
    - destruct SB as (N0 & R64 & F0 & w & size & t & nu & FD & RI & NU & S & FE & WW). rewrite (I64 _ R64). cbn [andb negb]. rewrite (proj2 (Z.eqb_neq _ _) H1), EP.
      cbn [AllModel.obind p_object p_width p_rows negb]. rewrite (proj2 (Z.eqb_neq _ _) N0), FD. specialize (WW b Hb eq_refl). subst w.
      destruct (roll_right P b rest _ size t nu _ E RI S FE eq_refl W16) as (t' & nu' & os' & ER & RI'). unfold slots in *. rewrite ER. cbn [AllModel.obind o_unique].
      do 5 eexists. split; [reflexivity|]. apply (Final t' nu' os' size); try assumption.
      + eapply find_put_same. exact FD.
      + intros q Nq. apply find_put_other. congruence.
      + intros w' q Nw Kq ->. apply Nw. now apply (IJ _ _ p).
      + rewrite put_length. lia.
    - change (int64_ok 0) with true. cbn [andb negb]. rewrite EP. cbn [AllModel.obind p_object p_width p_rows negb]. rewrite Z.eqb_refl. rewrite LR.
      assert (OS : of_stream (b_stream b) script = b :: of_stream (b_stream b) rest).
      { rewrite E. unfold of_stream in *. rewrite filter_app, SB. cbn [filter app]. now rewrite Nat.eqb_refl. }
      destruct (proj2 (proj2 OK) _ _ _ OS) as (HH & U & HU & LU). unfold start. rewrite (proj2 (Z.leb_le _ _) W16), (proj2 (Z.leb_le _ _) (proj1 HH)). cbn [andb].
      assert (HE : 0 <= entries (b_hint b) (b_rows b) < 68719476731). { unfold entries. destruct HK as ((HN & _) & _). destruct (b_hint b =? 0); lia. }
      set (size := AllocMemory MASK false (entries (b_hint b) (b_rows b))).
      assert (S : 0 < size) by (apply alloc_pos; lia).
      assert (FE : fewer_than size (rows_of (b_stream b) script)). { exists U. split; [exact HU|]. pose proof (alloc_gt MASK false _ HE). unfold size. unfold entries in *. lia. }
      assert (E0 : rows_of (b_stream b) P = [] /\ results_of (b_stream b) P outs = []).
      { unfold rows_of. rewrite SB. split; [reflexivity|]. unfold results_of. clear - SB. revert outs. unfold of_stream in SB. induction P as [|c P IH]; intros [|o outs]; try reflexivity.
        cbn [filter] in SB. destruct (Nat.eqb (b_stream c) (b_stream b)) eqn:EC; [discriminate|]. cbn [combine filter fst]. rewrite EC. now apply IH. }
      pose proof (roll_right P b rest (total_size (cols_of (b_keys b))) size (new_table size) 0 [] E) as Q. rewrite (proj1 E0) in Q. specialize (Q (new_inv size S) S FE eq_refl W16).
      destruct Q as (t' & nu' & os' & ER & RI'). unfold slots in *. rewrite ER. cbn [AllModel.obind o_unique].
      destruct (AD h) as (A0 & A64 & AF). { rewrite E, app_length in FEW. cbn [length] in FEW. clear - FEW LH. lia. }
      do 5 eexists. split; [reflexivity|]. apply (Final t' nu' os' size); try assumption.
      + destruct (find h0 (address h)) eqn:F; [|reflexivity]. apply KP in F. congruence.
      + rewrite (proj1 E0), (proj2 E0). exact RI'.
      + cbn [find]. now rewrite Z.eqb_refl.
      + intros q Nq. cbn [find]. rewrite (proj2 (Z.eqb_neq (address h) q)) by congruence. reflexivity.
      + intros w' q Nw Kq ->. specialize (SI w'). unfold stream_inv in SI. rewrite Kq in SI. destruct SI as (_ & _ & _ & w & sz & t & nu & D & _). congruence.
      + reflexivity.
  Qed.

  Lemma play_right : forall rest P outs h names, script = P ++ rest -> inv P outs h names ->
    exists outs' h' names', play crc_bytes address junk h names rest = Done (outs', h') /\ inv script (outs ++ outs') h' names'.
  Proof using OK AD FEW.
    induction rest as [|b rest IH]; intros P outs h names E I.
    - exists [], h, names. split; [reflexivity|]. rewrite app_nil_r in *. now rewrite E.
    - destruct (play_step P b rest outs h names E I) as (idx & count & nu & p & h' & EC & I'). destruct (IH (P ++ [b]) _ h' _ ltac:(rewrite <- app_assoc; exact E) I') as (outs' & h'' & names' & EP & I'').
      exists ((idx, count, nu) :: outs'), h'', names'. cbn [play]. rewrite EC, EP. split; [reflexivity|]. rewrite <- app_assoc in I''. exact I''.
  Qed.

  Lemma rows_once who x y : In x (rows_of who script) -> In y (rows_of who script) -> concat x = concat y -> x = y.
  Proof using OK.
    assert (A : forall z, In z (rows_of who script) -> exists b, In b script /\ b_stream b = who /\ map (fun l => Z.of_nat (length l)) z = map size_of (cols_of (b_keys b))).
    { intros z Hz. apply in_concat in Hz as (l & Hl & Hz). apply in_map_iff in Hl as (b & <- & Hb). apply filter_In in Hb as (Hb & Eb). apply Nat.eqb_eq in Eb. exists b. split; [exact Hb|]. split; [exact Eb|].
      unfold batch_rows, table in Hz. apply in_map_iff in Hz as (i & <- & Hi). apply in_seq in Hi. destruct (proj1 OK b Hb) as ((HC & _) & _). exact (row_sizes (b_rows b) _ i HC (proj2 Hi)). }
    intros Hx Hy. destruct (A x Hx) as (b & Hb & Eb & Lx), (A y Hy) as (c & Hc & Ec & Ly). apply concat_inj.
    assert (LL : map (fun l : list Z => Z.of_nat (length l)) x = map (fun l => Z.of_nat (length l)) y). { rewrite Lx, Ly. apply (proj1 (proj2 OK)); [exact Hb|exact Hc|congruence]. }
    clear - LL. revert y LL. induction x as [|u x IH]; intros [|v y] LL; try discriminate; constructor; injection LL as E LL; [exact (Nat2Z.inj _ _ E)|now apply IH].
  Qed.
  Lemma rolls_rows who os first : rolls (flat (rows_of who script)) os first -> rolls (rows_of who script) os first.
  Proof using OK.
    intros (G & R). split; [|exact R]. apply (grouped_on (@concat Z)).
    - intros x y Hx Hy. unfold all_kept in Hx, Hy. rewrite map_map in Hx, Hy. cbn [fst] in Hx, Hy. rewrite map_id in Hx, Hy. now apply (rows_once who).
    - unfold all_kept in *. rewrite map_map in *. exact G.
  Qed.

  Lemma streams_call : exists outs h, play crc_bytes address junk h0 [] script = Done (outs, h) /\ length outs = length script /\
    (forall who, exists first, rolls (rows_of who script) (counted (results_of who script outs)) first /\ last_number (results_of who script outs) = Z.of_nat (length first)) /\
    forall p r, find h0 p = Some r -> find h p = Some r.
  Proof using OK AD FEW.
    destruct (play_right script [] [] h0 [] eq_refl) as (outs & h & names & E & (L & SI & _ & KP & _)).
    { split; [reflexivity|]. split; [intros who; reflexivity|]. split; [discriminate|]. split; [auto|cbn [length]; lia]. }
    cbn [app] in *. exists outs, h. split; [exact E|]. split; [exact L|]. split; [|exact KP]. intros who. specialize (SI who). unfold stream_inv in SI. destruct (known who names) as [p|].
    - destruct SI as (_ & _ & _ & w & size & t & nu & _ & [_ _ (first & R & N & _) _] & NU & _). cbn [snd] in N. exists first. split; [now apply rolls_rows|]. now rewrite <- NU.
    - exists []. unfold rows_of. rewrite SI. assert (results_of who script outs = []) as ->.
      { unfold results_of. clear - SI. revert outs. unfold of_stream in SI. induction script as [|c P IH]; intros [|o outs]; try reflexivity.
        cbn [filter] in SI. destruct (Nat.eqb (b_stream c) who) eqn:EC; [discriminate|]. cbn [combine filter fst]. rewrite EC. now apply IH. }
      split; [split; [apply grouped_nil|apply column_nil]|reflexivity].
  Qed.
End Play.

Section Rest.
  Context (crc_bytes : list Z -> Z) (address : objects -> Z) (junk : nat -> Z).
  Lemma delete_call h k p : - 2 ^ 63 <= p < 2 ^ 63 -> p <> 0 -> (exists r, find h p = Some r) ->
    exists h', MultiKeyRollingCall crc_bytes address junk h k (-1) (Some p) = Done (None, h') /\ forall q, q <> p -> find h' q = find h q.
  Proof.
    intros HP N (r & F). exists (drop h p). unfold MultiKeyRollingCall. assert (int64_ok p = true) as -> by (unfold int64_ok; now rewrite (proj2 (Z.leb_le _ _)), (proj2 (Z.ltb_lt _ _)) by lia).
    change (int64_ok (-1)) with true. cbn [andb negb]. rewrite Z.eqb_refl, (proj2 (Z.eqb_neq _ _) N), F. split; [reflexivity|]. intros q Nq. apply find_drop_other. congruence.
  Qed.
  (* before the columns are looked at *)
  Lemma roll_refused h k hint last : - 2 ^ 63 <= hint < 2 ^ 63 -> (last = None \/ (hint <> -1 /\ exists p, last = Some p /\ - 2 ^ 63 <= p < 2 ^ 63)) ->
    prepare_keys k = Error -> MultiKeyRollingCall crc_bytes address junk h k hint last = Error.
  Proof.
    intros HH HL E. assert (I64 : forall z, - 2 ^ 63 <= z < 2 ^ 63 -> int64_ok z = true). { intros z Hz. unfold int64_ok. now rewrite (proj2 (Z.leb_le _ _)), (proj2 (Z.ltb_lt _ _)) by lia. }
    unfold MultiKeyRollingCall. rewrite (I64 _ HH). destruct HL as [-> | (N & p & -> & HP)]; [|rewrite (I64 _ HP), (proj2 (Z.eqb_neq _ _) N)]; [change (int64_ok 0) with true|]; cbn [andb negb]; rewrite E; reflexivity.
  Qed.
  Lemma list_refused cols : columns_bad cols -> prepare_keys (KeysList cols) = Error.
  Proof. intros B. cbn [prepare_keys]. now rewrite (columns_refused cols PNone B). Qed.
  Lemma tuple_refused cols : columns_bad cols -> prepare_keys (KeysTuple cols) = Error.
  Proof.
    intros B. unfold prepare_keys. destruct cols as [|c cols]; [destruct B as (_ & [(c & [] & _)|(c & c' & [] & _)])|]. now rewrite (columns_refused _ _ B).
  Qed.
  (* three columns in a tuple: the third one is taken for a filter *)
  Lemma third_refused n cols size a : 0 <= n < 68719476731 -> Forall (column_ok n) cols -> nth_error cols 2 = Some (KArray size a) -> a_dtype a <> 0 -> prepare_keys (KeysTuple cols) = Error.
  Proof.
    intros HN HC E N. destruct cols as [|c0 [|c1 [|c2 cols]]]; try discriminate E. cbn in E. injection E as ->. unfold prepare_keys.
    rewrite (filter_refused n); [reflexivity|exact HN|discriminate|exact HC|]. cbn. now left.
  Qed.
  Lemma wide_call n k h hint : keys_ok n k -> 16 < total_size (cols_of k) -> - 2 ^ 63 <= hint < 2 ^ 63 ->
    exists p h', MultiKeyRollingCall crc_bytes address junk h k hint None = Done (Some (map junk (seq 0 (Z.to_nat n)), map junk (seq 0 (Z.to_nat n)), 0, p), h').
  Proof.
    intros HK W HH. destruct (keys_prepared n k HK) as (core & EP). unfold MultiKeyRollingCall.
    assert (int64_ok hint = true) as -> by (unfold int64_ok; now rewrite (proj2 (Z.leb_le _ _)), (proj2 (Z.ltb_lt _ _)) by lia).
    change (int64_ok 0) with true. cbn [andb negb]. rewrite EP. cbn [AllModel.obind p_object p_width p_rows negb]. rewrite Z.eqb_refl. unfold start, roll.
    rewrite (proj2 (Z.leb_gt _ _) W), (proj2 (Z.ltb_lt _ _) W). cbn [andb AllModel.obind o_unique]. unfold table. rewrite !map_length, seq_length. eauto.
  Qed.
End Rest.
