(** C98: the sections of several SDS files put into one file are all read back from it. *)
From Verif Require Import Base SdsModel SdsSpec PileModel PileSpec PileProofs Pile4Proofs SdsProps.
Local Open Scope Z_scope.

(* the files that exist are put into the output one after the other: every section of every one of them is read back, in order, from the offset that the directory gives;
   no other file changes; a missing file makes the call raise after the output was written. Missing: the restrictions of C31 ([made], [saveable]); an output among the inputs;
   output files from 2^62 bytes on; the names of the sections (see below) *)
Theorem C98_concat_partial : forall k must d ns o xs, codec_ok k -> ~ In o ns -> Forall2 (input k d) ns xs ->
  existsb (fun x => negb (absent x)) xs = true -> must && existsb absent xs = false ->
  exists d' f', MultiConcatFiles k must d ns o = Returns (existsb absent xs) d' /\ d' o = Some f' /\ (forall m, m <> o -> d' m = d m)
    /\ (len f' < 2 ^ 62 -> exists offs c0, read_file k f' 0 = Some c0 /\ c_sections c0 = map (fun x => ([48], x)) offs /\ held k f' (all_sections xs) offs).
Proof. exact concat_read. Qed.
Print Assumptions C98_concat_partial.

(* saving, appending sections and putting files together in any mixture: every section is read back, from the offset that the directory gives *)
Theorem C98_made_partial : forall k f ws, codec_ok k -> made k f ws ->
  exists offs c0, read_file k f 0 = Some c0 /\ held k f ws offs /\ (length ws = 1%nat \/ map snd (c_sections c0) = offs).
Proof. exact made_read. Qed.
Print Assumptions C98_made_partial.

(* nothing is written when a file is missing that must exist, or when there is no file *)
Theorem C98_nothing_written : forall k must d ns o xs, codec_ok k -> ~ In o ns -> ns <> [] -> Forall2 (input k d) ns xs ->
  (must = true /\ existsb absent xs = true) \/ forallb absent xs = true -> MultiConcatFiles k must d ns o = Returns true d.
Proof. exact nothing_written. Qed.
Print Assumptions C98_nothing_written.

(* the header of a section that was moved names no directory: that of its old file is not part of the new one *)
Theorem C98_moved_header : forall fo hb, fld (dec header_layout (fix_header fo hb)) SectionBlockOffset = 0.
Proof. exact fix_header_section. Qed.
Print Assumptions C98_moved_header.

(** ** The hypotheses are met *)
(* no compression: one byte more *)
Definition ex_a : winfo := W [A 1 1 [2] [1] 0 [5; 6]] [] [] 0 1 0 0 0.
Definition ex_b : winfo := W [A 1 1 [3] [1] 0 [7; 8; 9]] [] [] 0 1 0 0 0.
Example ex_a_saveable : saveable k9 ex_a.
Proof.
  constructor; cbn [ex_a w_arrays w_band w_comp w_names w_meta].
  - constructor; [five_ok | constructor].
  - lia.
  - repeat constructor. unfold collision. vm_compute. intros [X _]. discriminate X.
  - constructor.
  - now left.
  - cbn. lia.
Qed.
Example ex_b_saveable : saveable k9 ex_b.
Proof.
  constructor; cbn [ex_b w_arrays w_band w_comp w_names w_meta].
  - constructor; [five_ok | constructor].
  - lia.
  - repeat constructor. unfold collision. vm_compute. intros [X _]. discriminate X.
  - constructor.
  - now left.
  - cbn. lia.
Qed.
Definition saved (w : winfo) (sec : option (list Z)) (f : option file) : file := match write_file k9 w sec one_array f with Some g => g | None => [] end.
Definition file_a : file := saved ex_a (Some [88]) None.
Definition file_ab : file := saved ex_b (Some [89]) (Some file_a).
Lemma written : forall w sec f n, len (saved w sec f) = n -> 0 < n < 2 ^ 62 -> write_file k9 w sec one_array f = Some (saved w sec f) /\ len (saved w sec f) < 2 ^ 62.
Proof. intros w sec f n E R. rewrite E. split; [|lia]. unfold saved in *. destruct (write_file k9 w sec one_array f); [reflexivity | cbn in E; lia]. Qed.
Example made_a : made k9 file_a [ex_a].
Proof.
  destruct (written ex_a (Some [88]) None 2048) as [E S]; [vm_compute; reflexivity | lia |].
  apply (made_new k9 ex_a (Some [88]) one_array None); [exact ex_a_saveable | exact I | | exact E | exact S]. cbn. repeat constructor. lia.
Qed.
Example made_ab : made k9 file_ab [ex_a; ex_b].
Proof.
  destruct (written ex_b (Some [89]) (Some file_a) 3075) as [E S]; [vm_compute; reflexivity | lia |].
  eapply (made_add k9 file_a [ex_a] ex_b [89]); [exact made_a | exact ex_b_saveable | | exact E | exact S]. repeat constructor. lia.
Qed.
Definition ex_disk : disk := put (put (fun _ => None) [97] file_ab) [98] file_a.
(* a file with two sections, a file with one and a missing file *)
Example ex_inputs : Forall2 (input k9 ex_disk) [[97]; [99]; [98]] [Some (file_ab, [ex_a; ex_b]); None; Some (file_a, [ex_a])].
Proof. repeat constructor; [exact made_ab | exact made_a]. Qed.
Example ex_concat : match MultiConcatFiles k9 false ex_disk [[97]; [99]; [98]] [111] with
  | Returns r d' => r = true /\ option_map len (d' [111]) = Some (pad (len file_ab) + len file_a + 512)
  | Undef => False
  end.
Proof. vm_compute. split; reflexivity. Qed.

(** ** Refutations *)
(* the names of the sections are lost *)
Definition listed_names (f : file) : option (list (list Z)) := option_map (fun c => map fst (c_sections c)) (read_file k9 f 0).
Lemma listed_read : forall f l, listed_names f = Some l -> exists c, read_file k9 f 0 = Some c /\ map fst (c_sections c) = l.
Proof. intros f l E. unfold listed_names in E. destruct (read_file k9 f 0) as [c|]; [|discriminate E]. injection E as E. exists c. auto. Qed.
Definition output_names (o : fname) (r : outcome) : option (list (list Z)) := match r with Returns _ d' => match d' o with Some f => listed_names f | None => None end | Undef => None end.
Lemma output_listed : forall o r b d' f' l, output_names o r = Some l -> r = Returns b d' -> d' o = Some f' -> listed_names f' = Some l.
Proof. intros o r b d' f' l E -> D. cbn [output_names] in E. rewrite D in E. exact E. Qed.
Theorem C98_names_refuted : exists k d n f o d' f' c c', codec_ok k /\ input k d n (Some (f, [ex_a; ex_b])) /\ n <> o
  /\ MultiConcatFiles k true d [n] o = Returns false d' /\ d' o = Some f' /\ read_file k f 0 = Some c /\ read_file k f' 0 = Some c'
  /\ map fst (c_sections c) = [[88]; [89]] /\ map fst (c_sections c') = [[48]; [48]].
Proof.
  destruct (concat_read k9 true ex_disk [[97]] [111] [Some (file_ab, [ex_a; ex_b])] k9_ok) as [d' [f' [C1 [C2 [_ _]]]]];
    [intros [X|[]]; discriminate X | repeat constructor; exact made_ab | reflexivity | reflexivity |].
  assert (N1 : listed_names file_ab = Some [[88]; [89]]) by (vm_compute; reflexivity).
  assert (N2 : output_names [111] (MultiConcatFiles k9 true ex_disk [[97]] [111]) = Some [[48]; [48]]) by (vm_compute; reflexivity).
  apply (output_listed _ _ _ _ _ _ N2 C1) in C2 as N3.
  destruct (listed_read _ _ N1) as [c [R1 E1]]. destruct (listed_read _ _ N3) as [c' [R2 E2]].
  exists k9, ex_disk, [97], file_ab, [111], d', f', c, c'. split; [exact k9_ok|]. split; [split; [reflexivity | exact made_ab]|]. split; [discriminate|].
  split; [exact C1|]. split; [exact C2|]. split; [exact R1|]. split; [exact R2|]. split; [exact E1 | exact E2].
Qed.
Print Assumptions C98_names_refuted.

(* an output that is also an input is emptied before it is read: the call returns and the data is gone *)
Definition first_data (f : file) : option (list got) := option_map c_arrays (read_file k9 f 0).
Theorem C98_output_is_input_refuted : exists k d n f w d' f', codec_ok k /\ input k d n (Some (f, [w]))
  /\ MultiConcatFiles k true d [n] n = Returns false d' /\ d' n = Some f' /\ ~ exists c, read_file k f' 0 = Some c /\ restores w c.
Proof.
  assert (N : match MultiConcatFiles k9 true ex_disk [[98]] [98] with
              | Returns r x => r = false /\ match x [98] with Some f' => first_data f' <> Some [GArray (A 1 1 [2] [1] 0 [5; 6])] /\ match first_data f' with Some [GArray b] => a_data b <> [5; 6] | _ => True end | None => False end
              | Undef => False
              end).
  { vm_compute. split; [reflexivity|]. split; [discriminate|]. first [exact I | discriminate]. }
  destruct (MultiConcatFiles k9 true ex_disk [[98]] [98]) as [|r d'] eqn:C; [destruct N|]. destruct N as [-> N]. destruct (d' [98]) as [f'|] eqn:D; [|destruct N]. destruct N as [_ N].
  exists k9, ex_disk, [98], file_a, ex_a, d', f'. split; [exact k9_ok|]. split; [split; [reflexivity | exact made_a]|]. split; [exact C|]. split; [exact D|].
  intros [c [R1 [_ [_ R]]]]. unfold first_data in N. rewrite R1 in N. cbn [option_map] in N. inversion R as [|? g ? l RG RL E1 E2]; subst. inversion RL; subst.
  rewrite <- E2 in N. destruct g as [| | |b]; try (destruct RG; fail). destruct RG as (_ & _ & _ & _ & _ & _ & X). apply N. exact X.
Qed.
Print Assumptions C98_output_is_input_refuted.
