(** Files that were put together can be read. *)
From Verif Require Import Base SdsModel SdsSpec SdsProofs Sds2Proofs Sds3Proofs Sds4Proofs Sds5Proofs Sds6Proofs Sds7Proofs PileModel PileSpec PileProofs Pile2Proofs Pile3Proofs.
Local Open Scope Z_scope.

Definition good (k : codec) (f : file) (ws : list winfo) : Prop :=
  exists w0 rest names doff dres h0 ps0 hi0, inv k f w0 rest names doff dres h0 ps0 hi0 /\ ws = w0 :: map fst rest /\ Forall (saveable k) ws /\ len f < 2 ^ 62.

Lemma good_read : forall k f ws, codec_ok k -> good k f ws ->
  exists offs c0, read_file k f 0 = Some c0 /\ held k f ws offs /\ (length ws = 1%nat \/ map snd (c_sections c0) = offs).
Proof.
  intros k f ws OK (w0 & rest & names & doff & dres & h0 & ps0 & hi0 & INV & -> & SV & SM). destruct (saveable_rest _ _ _ SV) as [SV0 SVS].
  pose proof (inv_sections _ _ _ _ _ _ _ _ _ _ SM INV) as SEC.
  destruct (read_section k f 0 hi0 w0 h0 ps0 _ OK SV0 (i_de _ _ _ _ _ _ _ _ _ _ INV) (i_st _ _ _ _ _ _ _ _ _ _ INV) SEC) as [c0 [R1 [R2 R3]]].
  exists (0 :: map snd rest), c0. split; [exact R1|]. split.
  - constructor; [exists c0; auto|]. pose proof (i_rest _ _ _ _ _ _ _ _ _ _ INV) as RS. clear -OK SVS RS. induction RS as [|p r P RS IH]; [constructor|].
    apply Forall_cons_iff in SVS. destruct SVS as [S1 S2]. cbn [map]. constructor; [|now apply IH].
    destruct P as [h [ps [hi [Q1 [Q2 [Q3 _]]]]]].
    destruct (read_section k f (snd p) hi (fst p) h ps [] OK S1 Q3 Q2) as [c' [A1 [A2 _]]]; [|exists c'; auto].
    unfold sections_of. replace (snd p =? 0) with false by (symmetry; apply Z.eqb_neq; lia). reflexivity.
  - rewrite R3. pose proof (i_dir _ _ _ _ _ _ _ _ _ _ INV) as D. destruct names as [|n0 names']; [destruct D as [-> _]; left; reflexivity|]. right.
    destruct D as [D1 _]. unfold entries. cbn [combine map snd]. f_equal. cbn [length] in D1. clear -D1.
    revert names' D1. induction rest as [|p r IH]; intros [|x names'] D1; try discriminate D1; [reflexivity|]. cbn [map combine length snd] in *. now rewrite IH by lia.
Qed.

Lemma good_zero : forall k f w0 rest doff dres h0 ps0 hi0, codec_ok k -> inv k f w0 rest (repeat [48] (S (length rest))) doff dres h0 ps0 hi0 ->
  Forall (saveable k) (w0 :: map fst rest) -> len f < 2 ^ 62 ->
  exists c0, read_file k f 0 = Some c0 /\ c_sections c0 = map (fun x => ([48], x)) (0 :: map snd rest) /\ held k f (w0 :: map fst rest) (0 :: map snd rest).
Proof.
  intros k f w0 rest doff dres h0 ps0 hi0 OK INV SV SM. destruct (saveable_rest _ _ _ SV) as [SV0 SVS].
  pose proof (inv_sections _ _ _ _ _ _ _ _ _ _ SM INV) as SEC. rewrite zero_entries in SEC.
  destruct (read_section k f 0 hi0 w0 h0 ps0 _ OK SV0 (i_de _ _ _ _ _ _ _ _ _ _ INV) (i_st _ _ _ _ _ _ _ _ _ _ INV) SEC) as [c0 [R1 [R2 R3]]].
  destruct (good_read k f (w0 :: map fst rest) OK) as [offs [c1 [E1 [E2 E3]]]].
  { exists w0, rest, (repeat [48] (S (length rest))), doff, dres, h0, ps0, hi0. auto. }
  exists c0. split; [exact R1|]. split; [exact R3|]. rewrite R1 in E1. injection E1 as <-.
  destruct E3 as [E3|E3].
  - destruct rest; [|discriminate E3]. constructor; [exists c0; auto | constructor].
  - replace (0 :: map snd rest) with offs; [exact E2|]. rewrite <- E3, R3, map_map. cbn [snd]. apply map_id.
Qed.

Section Concat.
  Context (k : codec) (d : disk) (o : fname).
  Hypothesis OK : codec_ok k.
  Definition known (n : fname) (x : option (file * list winfo)) : Prop := match x with Some (f, ws) => d n = Some f /\ good k f ws /\ n <> o | None => d n = None end.
  Lemma opened_inputs : forall ns xs, Forall2 known ns xs -> exists ps,
    flat_map (fun x => match fst x with Some p => [p] | None => [] end) (map (open_input k d) ns) = ps
    /\ Forall2 (ready k o d) ps (flat_map (fun x => match x with Some (_, ws) => [ws] | None => [] end) xs)
    /\ existsb snd (map (open_input k d) ns) = existsb absent xs
    /\ existsb (fun x => match fst x with Some _ => false | None => true end) (map (open_input k d) ns) = existsb absent xs.
  Proof.
    intros ns xs F. induction F as [|n x ns xs K F IH]; [exists []; cbn; auto|]. destruct IH as [ps [I1 [I2 [I3 I4]]]].
    destruct x as [[f ws]|]; cbn [known] in K.
    - destruct K as [DN [G NO]]. destruct G as (w0 & rest & names & doff & dres & h0 & ps0 & hi0 & INV & EW & SV & SM).
      assert (SV' := SV). rewrite EW in SV'. destruct (saveable_rest _ _ _ SV') as [SV0 SVS].
      pose proof (open_ok k f w0 rest names doff dres h0 ps0 hi0 INV SV0 SM d n OK DN) as OP.
      cbn [map flat_map existsb absent]. rewrite OP. cbn [fst snd orb]. rewrite I1, I3, I4. eexists. split; [reflexivity|]. split; [|auto].
      cbn [app]. constructor; [|exact I2]. exists n, f, w0, rest, names, doff, dres, h0, ps0, hi0. auto 9.
    - cbn [map flat_map existsb absent]. unfold open_input at 1 3 5. rewrite K. cbn [fst snd orb app]. exists ps. auto.
  Qed.
  Lemma all_sections_flat : forall xs, concat (flat_map (fun x => match x with Some (_, ws) => [ws] | None => [] end) xs) = all_sections xs.
  Proof. unfold all_sections. induction xs as [|[[f ws]|] xs IH]; [reflexivity | |]; cbn [flat_map map concat app]; now rewrite IH. Qed.
  Lemma saveable_all : forall ns xs, Forall2 known ns xs -> Forall (saveable k) (all_sections xs).
  Proof.
    intros ns xs F. unfold all_sections. induction F as [|n x ns xs K F IH]; [constructor|]. cbn [map concat]. apply Forall_app. split; [|exact IH].
    destruct x as [[f ws]|]; [|constructor]. destruct K as [_ [(w0 & rest & names & doff & dres & h0 & ps0 & hi0 & _ & _ & SV & _) _]]. exact SV.
  Qed.

  Lemma multi_ok : forall must ns xs, Forall2 known ns xs -> existsb (fun x => negb (absent x)) xs = true -> must && existsb absent xs = false ->
    exists d' f', MultiConcatFiles k must d ns o = Returns (existsb absent xs) d' /\ d' o = Some f' /\ (forall m, m <> o -> d' m = d m)
      /\ (len f' < 2 ^ 62 -> exists w0 rest doff dres h0 ps0 hi0, inv k f' w0 rest (repeat [48] (S (length rest))) doff dres h0 ps0 hi0 /\ all_sections xs = w0 :: map fst rest).
  Proof.
    intros must ns xs F EX MU. destruct (opened_inputs ns xs F) as [ps [I1 [I2 [I3 I4]]]].
    assert (NE : ps <> []).
    { intros ->. inversion I2 as [Y0 Y|]. apply existsb_exists in EX. destruct EX as [x [IN N]]. destruct x as [[f ws]|]; [|discriminate N].
      assert (IN' : In ws (flat_map (fun x => match x with Some (_, ws) => [ws] | None => [] end) xs)) by (apply in_flat_map; exists (Some (f, ws)); split; [exact IN | now left]).
      rewrite <- Y in IN'. destruct IN'. }
    destruct (concat_ok k o d ps _ I2 NE) as [d' [f' [C1 [C2 [C3 C4]]]]]. rewrite all_sections_flat in C4.
    exists d', f'. split; [|auto]. unfold MultiConcatFiles. destruct ns as [|n ns]; [inversion F; subst; discriminate EX|].
    rewrite I4, MU, I1. destruct ps as [|p ps]; [congruence|]. rewrite C1, I3. reflexivity.
  Qed.
End Concat.

Lemma made_good : forall k f ws, codec_ok k -> made k f ws -> good k f ws.
Proof.
  intros k f ws OK M. induction M as [w sec es f f' SV FR NF E SM | f ws w name es f' M IH SV NF E SM | must d ns o fs wss d' f' r L M IH NE DN NO E DO SM].
  - destruct (fresh_inv k w sec es f f' OK SV FR NF E SM) as [doff [dres [h0 [ps0 [hi0 INV]]]]].
    eexists w, [], _, doff, dres, h0, ps0, hi0. split; [exact INV|]. split; [reflexivity|]. split; [constructor; [exact SV | constructor] | exact SM].
  - destruct IH as (w0 & rest & names & doff & dres & h0 & ps0 & hi0 & INV & EW & SVS & SM0).
    destruct (append_inv k w name es f f' w0 rest names doff dres h0 ps0 hi0 OK SV NF INV E SM) as [off [d1 [r1 [hh [hi1 INV2]]]]].
    exists w0, (rest ++ [(w, off)]), (listed names ++ [name]), d1, r1, hh, ps0, hi1. split; [exact INV2|]. split; [rewrite EW, map_app; reflexivity|].
    split; [apply Forall_app; split; [exact SVS | constructor; [exact SV | constructor]] | exact SM].
  - assert (F : Forall2 (known k d o) ns (map Some (combine fs wss))).
    { clear -IH DN L NO. revert ns fs wss L DN IH NO. induction ns as [|n ns IHn]; intros fs wss L DN IH NO.
      - destruct fs; [|discriminate DN]. constructor.
      - destruct fs as [|f fs]; [discriminate DN|]. destruct wss as [|ws wss]; [discriminate L|]. cbn [map combine] in *. injection DN as D1 D2. constructor.
        + cbn [known]. split; [exact D1|]. split; [apply (IH O); reflexivity|]. intros ->. apply NO. now left.
        + apply IHn; [cbn in L; lia | exact D2 | | intro X; apply NO; now right]. intros i g v G V. exact (IH (S i) g v G V). }
    assert (AB : existsb absent (map Some (combine fs wss)) = false) by (clear; induction (combine fs wss); [reflexivity | exact IHl]).
    assert (EX : existsb (fun x => negb (absent x)) (map Some (combine fs wss)) = true).
    { destruct ns; [congruence|]. destruct fs; [discriminate DN|]. destruct wss; [discriminate L|]. reflexivity. }
    destruct (multi_ok k d o OK must ns _ F EX) as [d2 [f2 [M1 [M2 [M3 M4]]]]]; [rewrite AB; apply andb_false_r|].
    rewrite M1 in E. injection E as _ <-. rewrite M2 in DO. injection DO as ->. destruct (M4 SM) as (w0 & rest & doff & dres & h0 & ps0 & hi0 & INV & EW).
    pose proof (saveable_all _ _ _ _ _ F) as SVS.
    assert (AS : all_sections (map Some (combine fs wss)) = concat wss).
    { unfold all_sections. f_equal. rewrite map_map. clear -L. revert wss L. induction fs as [|f fs IH]; intros [|ws wss] L; try discriminate L; [reflexivity|]. cbn. rewrite IH by (cbn in L; lia). reflexivity. }
    rewrite AS in *. exists w0, rest, (repeat [48] (S (length rest))), doff, dres, h0, ps0, hi0. auto.
Qed.

Lemma inputs_known : forall k d o ns xs, codec_ok k -> ~ In o ns -> Forall2 (input k d) ns xs -> Forall2 (known k d o) ns xs.
Proof.
  intros k d o ns xs OK NO F. induction F as [|n x ns xs K F IH]; [constructor|]. constructor; [|apply IH; intro X; apply NO; now right].
  destruct x as [[f ws]|]; [|exact K]. destruct K as [K1 K2]. split; [exact K1|]. split; [now apply made_good|]. intros ->. apply NO. now left.
Qed.
Lemma concat_read : forall k must d ns o xs, codec_ok k -> ~ In o ns -> Forall2 (input k d) ns xs ->
  existsb (fun x => negb (absent x)) xs = true -> must && existsb absent xs = false ->
  exists d' f', MultiConcatFiles k must d ns o = Returns (existsb absent xs) d' /\ d' o = Some f' /\ (forall m, m <> o -> d' m = d m)
    /\ (len f' < 2 ^ 62 -> exists offs c0, read_file k f' 0 = Some c0 /\ c_sections c0 = map (fun x => ([48], x)) offs /\ held k f' (all_sections xs) offs).
Proof.
  intros k must d ns o xs OK NO F EX MU. pose proof (inputs_known k d o ns xs OK NO F) as FK.
  destruct (multi_ok k d o OK must ns xs FK EX MU) as [d' [f' [M1 [M2 [M3 M4]]]]]. exists d', f'. split; [exact M1|]. split; [exact M2|]. split; [exact M3|]. intro SM.
  destruct (M4 SM) as (w0 & rest & doff & dres & h0 & ps0 & hi0 & INV & EW). pose proof (saveable_all _ _ _ _ _ FK) as SVS. rewrite EW in *.
  destruct (good_zero _ _ _ _ _ _ _ _ _ OK INV SVS SM) as [c0 [R1 [R2 R3]]]. exists (0 :: map snd rest), c0. auto.
Qed.
Lemma made_read : forall k f ws, codec_ok k -> made k f ws ->
  exists offs c0, read_file k f 0 = Some c0 /\ held k f ws offs /\ (length ws = 1%nat \/ map snd (c_sections c0) = offs).
Proof. intros k f ws OK M. apply good_read; [exact OK | now apply made_good]. Qed.

(* nothing is written when a file is missing that must exist, or when no file can be read *)
Lemma nothing_written : forall k must d ns o xs, codec_ok k -> ~ In o ns -> ns <> [] -> Forall2 (input k d) ns xs ->
  (must = true /\ existsb absent xs = true) \/ forallb absent xs = true -> MultiConcatFiles k must d ns o = Returns true d.
Proof.
  intros k must d ns o xs OK NO NE F H. pose proof (inputs_known k d o ns xs OK NO F) as FK. destruct (opened_inputs k d o OK ns xs FK) as [ps [I1 [I2 [I3 I4]]]].
  unfold MultiConcatFiles. destruct ns as [|n ns]; [congruence|]. rewrite I4, I1.
  destruct H as [[-> ->] | H]; [reflexivity|].
  assert (PS : ps = []).
  { assert (E : flat_map (fun x => match x with Some (_, ws) => [ws] | None => [] end) xs = []).
    { clear -H. induction xs as [|[[f ws]|] xs IH]; [reflexivity | discriminate H | exact (IH H)]. }
    rewrite E in I2. inversion I2. reflexivity. }
  rewrite PS. destruct (must && existsb absent xs); reflexivity.
Qed.
