(** Proofs about compressing in memory. *)
From Verif Require Import Base SdsModel SdsProofs ZipModel ZipSpec.
Local Open Scope Z_scope.

Lemma each_map {A B} (f : A -> reply B) (g : A -> B) l : (forall x, In x l -> f x = Value (g x)) -> each f l = Value (map g l).
Proof. induction l as [|x l IH]; intros H; [reflexivity|]. cbn. rewrite H by now left. cbn. rewrite IH by (intros; apply H; now right). reflexivity. Qed.
Lemma eachi_map {A B} (f : nat -> A -> reply B) (g : A -> B) l : (forall i x, In x l -> f i x = Value (g x)) -> forall i, eachi f i l = Value (map g l).
Proof. induction l as [|x l IH]; intros H i; [reflexivity|]. cbn. rewrite H by now left. cbn. rewrite IH by (intros; apply H; now right). reflexivity. Qed.

Definition flat (a : nd) : nd := match n_dims a with [n] => if n <=? 1 then a else ND (n_dtype a) (n_item a) [n] (n_item a) (n_flags a) (n_data a) | _ => a end.
Lemma flat_same a : n_dtype (flat a) = n_dtype a /\ n_item (flat a) = n_item a /\ n_dims (flat a) = n_dims a /\ n_flags (flat a) = n_flags a /\ n_data (flat a) = n_data a.
Proof. unfold flat. destruct (n_dims a) as [|n [|]] eqn:E; auto. destruct (n <=? 1); cbn; auto. Qed.
Lemma info_plain c n a : plain n a -> 0 <= n -> array_info c (OArr a) = Value (Some (flat a)).
Proof.
  intros (D & T & _ & _ & _ & S & _ & _) N. unfold array_info. fold (flat a). destruct (Z.ltb_spec (n_dtype a) 0); [lia|]. destruct (Z.ltb_spec 20 (n_dtype a)); [lia|]. cbn [orb].
  rewrite D. replace (negb (n_item (flat a) =? n_stride (flat a)) && (0 <? items (flat a))) with false; [reflexivity|]. symmetry.
  unfold flat, items. rewrite D. destruct (Z.leb_spec n 1); cbn [n_item n_stride n_dims].
  - rewrite D. unfold product. cbn [fold_left]. destruct (Z.eq_dec n 1) as [E|E]; [rewrite S, Z.eqb_refl by assumption; reflexivity|]. assert (n = 0) by lia. subst n. apply andb_false_r.
  - rewrite Z.eqb_refl. reflexivity.
Qed.
Lemma build_plain c n l : Forall (plain n) l -> 0 <= n -> BuildArrayInfo c (map OArr l) = Value (map (fun a => Some (flat a)) l).
Proof.
  intros F N. unfold BuildArrayInfo. assert (E : each (array_info c) (map OArr l) = Value (map (fun a => Some (flat a)) l)).
  { induction F as [|a l P F IH]; [reflexivity|]. cbn [map each]. rewrite (info_plain c n) by assumption. cbn [bind]. rewrite IH. reflexivity. }
  rewrite E. cbn [bind]. destruct l as [|a l]; [reflexivity|]. cbn [map]. replace (forallb _ _) with true; [now rewrite andb_false_r|]. symmetry.
  assert (R : forall b, In b (a :: l) -> rows (Some (flat b)) = n).
  { intros b I. apply (proj1 (Forall_forall _ _) F) in I. destruct I as (D & _). cbn [rows]. unfold items. destruct (flat_same b) as (_ & _ & -> & _). rewrite D. unfold product. cbn [fold_left]. lia. }
  apply forallb_forall. intros i I. change (Some (flat a) :: map (fun b => Some (flat b)) l) with (map (fun b => Some (flat b)) (a :: l)) in I. apply in_map_iff in I as (b & <- & I).
  rewrite (R b I), (R a) by now left. apply Z.eqb_refl.
Qed.

Lemma zip_header_len junk a c : (length (n_dims a) <= 3)%nat -> length (zip_header junk a c) = 56%nat.
Proof.
  intros H. unfold zip_header. destruct (n_dims a) as [|d0 [|d1 [|d2 [|]]]]; cbn [length] in H; try lia; cbn [app firstn]; unfold zip_layout; cbn [enc]; rewrite !app_length, !length_le; reflexivity.
Qed.

Section Zip.
  Context (z : zstd) (OK : zstd_ok z).
  Definition frame_of (sum : bool) (level : Z) (x : list Z) : list Z := match pack z level sum (cbound z (len x)) x with Some y => y | None => [] end.
  Lemma frame_pack sum level x : pack z level sum (cbound z (len x)) x = Some (frame_of sum level x).
  Proof. unfold frame_of. destruct OK as [T _]. specialize (T level sum x). destruct (pack _ _ _ _ _); congruence. Qed.
  Lemma data_frame ctx sum level junk x : (sum = true -> ctx = true) -> ZstdCompressData z sum ctx level junk x = Some (frame_of sum level x).
  Proof. intros H. unfold ZstdCompressData. replace (sum && negb ctx) with false; [apply frame_pack|]. destruct sum; [rewrite H by reflexivity; reflexivity|reflexivity]. Qed.
  Lemma frame_content sum level x rest : content z (frame_of sum level x ++ rest) = Some (len x).
  Proof. destruct OK as [_ U]. apply (U _ _ _ _ _ (frame_pack sum level x)). Qed.
  Lemma frame_unpack sum level x : unpack z (len x) (frame_of sum level x) = Some x.
  Proof. destruct OK as [_ U]. apply (U _ _ _ _ _ (frame_pack sum level x)). Qed.
  Lemma frame_len sum level x : len (frame_of sum level x) <= cbound z (len x).
  Proof. destruct OK as [_ U]. apply (U _ _ _ _ _ (frame_pack sum level x)). Qed.

  Definition packed (junk : nat -> Z) sum level (a : nd) : nd := uint8_array (zip_header junk a (len (frame_of sum level (n_data a))) ++ frame_of sum level (n_data a)).
  Lemma compress_plain ctx sum level junk a : (sum = true -> ctx = true) -> compress_one z sum ctx level junk (Some a) = Value (OArr (packed junk sum level a)).
  Proof. intros H. unfold compress_one. rewrite (data_frame ctx) by assumption. rewrite frame_content. reflexivity. Qed.

  Lemma fields junk n a c rest : n_dims a = [n] -> 0 <= n < 2 ^ 63 -> - 128 <= n_dtype a < 128 -> 0 <= n_item a < 2 ^ 31 -> 0 <= c < 2 ^ 64 ->
    let h := dec zip_layout (zip_header junk a c ++ rest) in
    fld h 2 = n_dtype a /\ fld h 3 = 1 /\ fld h 4 = n_item a /\ fld h 7 = n /\ fld h 10 = c.
  Proof.
    intros D N T I C h. unfold h, zip_header. rewrite D. cbn [app firstn length Z.of_nat].
    assert (S4 : forall v, - 2 ^ 31 <= v < 2 ^ 31 -> sgn 4 v = v) by (intros v V; apply sgn_id; change (256 ^ Z.of_nat 4 / 2) with (2 ^ 31); lia).
    assert (S8 : forall v, - 2 ^ 63 <= v < 2 ^ 63 -> sgn 8 v = v) by (intros v V; apply sgn_id; change (256 ^ Z.of_nat 8 / 2) with (2 ^ 63); lia).
    split; [|split; [|split; [|split]]].
    - rewrite fld_dec_enc by (cbn; lia). cbn [nth zip_layout fld]. unfold conv. cbn [fst snd]. apply sgn1. assumption.
    - rewrite fld_dec_enc by (cbn; lia). reflexivity.
    - rewrite fld_dec_enc by (cbn; lia). cbn [nth zip_layout fld]. unfold conv. cbn [fst snd]. apply S4. lia.
    - rewrite fld_dec_enc by (cbn; lia). cbn [nth zip_layout fld]. unfold conv. cbn [fst snd]. apply S8. lia.
    - rewrite fld_dec_enc by (cbn; lia). cbn [nth zip_layout fld]. unfold conv. cbn [fst snd]. change (256 ^ Z.of_nat 8) with (2 ^ 64). apply Z.mod_small. assumption.
  Qed.
  Lemma prepare_packed junk sum level n a : plain n a -> 0 <= n < 2 ^ 63 -> cbound z (len (n_data a)) < 2 ^ 64 ->
    prepare z (Some (packed junk sum level a)) = Value (Task (n_dtype a) (n_item a) [n] (frame_of sum level (n_data a)) (len (n_data a))).
  Proof.
    intros (D & T & _ & I & _) N C. unfold prepare, packed. cbn [uint8_array n_data]. set (y := frame_of sum level (n_data a)).
    assert (LY : len y < 2 ^ 64) by (pose proof (frame_len sum level (n_data a)); fold y in H; lia).
    assert (HL : length (zip_header junk a (len y)) = 56%nat) by (apply zip_header_len; rewrite D; cbn; lia).
    assert (LM : len (zip_header junk a (len y) ++ y) = 56 + len y) by (unfold len at 1; rewrite app_length, HL; unfold len; lia).
    rewrite LM. unfold ZIPHEADER. assert (0 <= len y) by (unfold len; lia). destruct (Z.ltb_spec (56 + len y) 56); [lia|].
    destruct (fields junk n a (len y) y D N) as (F2 & F3 & F4 & F7 & F10); [lia|lia|lia|]. rewrite F2, F3, F4, F7, F10.
    destruct (Z.ltb_spec (56 + len y - 56) (len y)); [lia|].
    assert (SK : skipn 56 (zip_header junk a (len y) ++ y) = y) by (rewrite skipn_app, HL, Nat.sub_diag, skipn_O, skipn_all2 by lia; reflexivity).
    rewrite SK. replace (firstn (Z.to_nat (len y)) y) with y by (unfold len; rewrite Nat2Z.id, firstn_all; reflexivity).
    pose proof (frame_content sum level (n_data a) []) as FC. rewrite app_nil_r in FC. fold y in FC. rewrite FC. reflexivity.
  Qed.
  Lemma decompress_plain junk main sum level n a t : plain n a -> 0 < n ->
    decompress_one z junk main t (Task (n_dtype a) (n_item a) [n] (frame_of sum level (n_data a)) (len (n_data a))) = Value (OArr (ND (n_dtype a) (n_item a) [n] (n_item a) 1281 (n_data a))).
  Proof.
    intros (D & T & T17 & I & E & _ & _ & L) N. unfold decompress_one. cbn [t_dtype t_item t_dims t_size t_frame].
    destruct (Z.ltb_spec (n_dtype a) 0); [lia|]. destruct (Z.ltb_spec 20 (n_dtype a)); [lia|]. cbn [orb existsb]. destruct (Z.ltb_spec n 0); [lia|]. cbn [orb].
    rewrite E. cbn [tl]. unfold product. cbn [fold_left]. rewrite Z.mul_1_l, Z.mul_1_r. destruct (Z.eqb_spec (len (n_data a)) 0); [nia|]. rewrite <- L.
    destruct (Z.ltb_spec (len (n_data a)) (len (n_data a))); [lia|]. rewrite frame_unpack, Z.eqb_refl. cbn [negb]. destruct (Z.eqb_spec (n_dtype a) 17); [lia|].
    rewrite Z.sub_diag. cbn [Z.to_nat seq map]. rewrite app_nil_r. reflexivity.
  Qed.

  Lemma packed_plain junk sum level n a : plain n a -> array_info false (OArr (packed junk sum level a)) = Value (Some (packed junk sum level a)).
  Proof.
    intros (D & _). unfold array_info, packed. cbn [uint8_array n_dtype n_item n_dims n_stride n_flags n_data]. cbn [Z.ltb Z.compare orb]. change (2 <? 0) with false. change (20 <? 2) with false. cbn [orb].
    destruct (_ <=? 1); cbn [n_item n_stride]; rewrite Z.eqb_refl; reflexivity.
  Qed.
  Theorem round_trip junk junk' main main' sum ctx level level' sum' ctx' n l : (sum = true -> ctx = true) -> Forall (plain n) l -> 0 < n < 2 ^ 63 ->
    Forall (fun a => cbound z (len (n_data a)) < 2 ^ 64) l ->
    exists ms os, CompressDecompressArrays z sum ctx junk main 0 level (map OArr l) = Value ms /\
      CompressDecompressArrays z sum' ctx' junk' main' 1 level' ms = Value os /\ Forall2 same_obj (map OArr l) os.
  Proof.
    intros HC F N C. set (lv := clamp_level level). exists (map (fun a => OArr (packed junk sum lv (flat a))) l), (map (fun a => OArr (ND (n_dtype a) (n_item a) [n] (n_item a) 1281 (n_data a))) l). split; [|split].
    - unfold CompressDecompressArrays. cbn [Z.eqb]. rewrite (build_plain true n) by (assumption || lia). cbn [bind].
      rewrite (each_map _ (fun i => match i with Some a => OArr (packed junk sum lv a) | None => ONone end)); [now rewrite map_map|].
      intros i I. apply in_map_iff in I as (a & <- & _). now apply compress_plain.
    - unfold CompressDecompressArrays. change (1 =? 0) with false. change (1 =? 1) with true. unfold BuildArrayInfo.
      rewrite (each_map _ (fun o => match o with OArr a => Some a | _ => None end)).
      2: { intros o I. apply in_map_iff in I as (a & <- & I). apply (proj1 (Forall_forall _ _) F) in I. apply (packed_plain junk sum lv n). unfold plain in *.
           destruct (flat_same a) as (-> & -> & -> & -> & ->). destruct I as (D & R). split; [exact D|]. intuition. unfold flat. rewrite D. destruct (n <=? 1); cbn; auto. }
      cbn [bind]. rewrite map_map. cbn match.
      replace (match map (fun a => Some (packed junk sum lv (flat a))) l with [] => Value [] | _ :: _ => if false then Raise else Value (map (fun a => Some (packed junk sum lv (flat a))) l) end)
        with (Value (map (fun a => Some (packed junk sum lv (flat a))) l)) by (destruct l; reflexivity).
      assert (PF : forall a, In a l -> plain n (flat a) /\ cbound z (len (n_data (flat a))) < 2 ^ 64).
      { intros a I. pose proof (proj1 (Forall_forall _ _) C a I) as CA. apply (proj1 (Forall_forall _ _) F) in I. unfold plain in *. destruct (flat_same a) as (-> & -> & -> & -> & ->). split; [|exact CA].
        destruct I as (D & R). split; [exact D|]. intuition. unfold flat. rewrite D. destruct (n <=? 1); cbn; auto. }
      match goal with |- bind ?x ?f = _ => replace x with (@Value (list (option nd)) (map (fun a => Some (packed junk sum lv (flat a))) l)) by (destruct l; reflexivity) end. cbn [bind].
      assert (P2 : each (prepare z) (map (fun a => Some (packed junk sum lv (flat a))) l) = Value (map (fun a => Task (n_dtype a) (n_item a) [n] (frame_of sum lv (n_data a)) (len (n_data a))) l)).
      { clear F C. induction l as [|a l IH]; [reflexivity|]. cbn [map each]. destruct (PF a) as [P1 P3]; [now left|]. rewrite (prepare_packed junk sum lv n (flat a)) by (assumption || lia).
        destruct (flat_same a) as (-> & -> & _ & _ & ->). cbn [bind]. rewrite IH by (intros; apply PF; now right). reflexivity. }
      rewrite P2. cbn [bind].
      assert (P4 : forall i, eachi (decompress_one z junk' main') i (map (fun a => Task (n_dtype a) (n_item a) [n] (frame_of sum lv (n_data a)) (len (n_data a))) l) =
        Value (map (fun a => OArr (ND (n_dtype a) (n_item a) [n] (n_item a) 1281 (n_data a))) l)); [|apply P4].
      clear PF P2 C. induction F as [|a l P F IH]; intros i; [reflexivity|]. cbn [map eachi]. rewrite (decompress_plain junk' main' sum lv n a i) by (assumption || lia). cbn [bind]. rewrite IH. reflexivity.
    - clear C. induction F as [|a l P F IH]; cbn [map]; constructor; [|exact IH]. cbn. unfold same_array. cbn. destruct P as (-> & _). auto.
  Qed.

  Lemma string_round_trip sum ctx junk level x : (sum = true -> ctx = true) -> x <> [] ->
    exists y, CompressString z sum ctx junk level x = Value y /\ DecompressString z y = Value x.
  Proof.
    intros H X. exists (frame_of sum (clamp_level level) x). split.
    - unfold CompressString. destruct x as [|c x]; [contradiction|]. now rewrite (data_frame ctx).
    - unfold DecompressString. pose proof (frame_content sum (clamp_level level) x []) as C. rewrite app_nil_r in C. rewrite C. destruct (Z.eqb_spec (len x) 0) as [E|E].
      + destruct x; [contradiction|cbn in E; unfold len in E; cbn in E; lia].
      + rewrite frame_unpack, Z.eqb_refl. reflexivity.
  Qed.
End Zip.

Lemma decompressed_sound z m x : DecompressString z m = Value x -> content z m = Some (len x) /\ unpack z (len x) m = Some x /\ x <> [].
Proof.
  unfold DecompressString. destruct (content z m) as [d|]; [|discriminate]. destruct (Z.eqb_spec d 0); [discriminate|]. destruct (unpack z d m) as [w|] eqn:U; [|discriminate].
  destruct (Z.eqb_spec (len w) d) as [E|]; [|discriminate]. intros H. injection H as <-. subst d. split; [reflexivity|]. split; [exact U|]. intros ->. apply n. reflexivity.
Qed.
Lemma decompress_defined z m : DecompressString z m <> Undefined /\ DecompressString z m <> SysError.
Proof. unfold DecompressString. destruct (content z m) as [d|]; [|split; discriminate]. destruct (d =? 0); [split; discriminate|]. destruct (unpack z d m) as [w|]; [|split; discriminate]. destruct (len w =? d); split; discriminate. Qed.
Lemma each_undefined {A B} (f : A -> reply B) l x r : (forall y, In y l -> exists v, f y = Value v) -> f x = Undefined -> each f (l ++ x :: r) = Undefined.
Proof.
  induction l as [|y l IH]; intros H X; cbn [app each].
  - rewrite X. reflexivity.
  - destruct (H y) as (v & ->); [now left|]. cbn [bind]. rewrite IH; [reflexivity| |assumption]. intros; apply H; now right.
Qed.
(** a codec to try things on: the length, then the bytes *)
Definition toy : zstd := Zstd (fun _ _ _ x => Some (len x :: x)) (fun _ y => match y with _ :: x => Some x | [] => None end) (fun y => match y with d :: _ => Some d | [] => None end) (fun n => n + 1).
Lemma toy_ok : zstd_ok (Zstd (fun _ _ c x => if len x + 1 <=? c then Some (len x :: x) else None) (unpack toy) (content toy) (cbound toy)).
Proof.
  split; cbn [pack unpack content cbound toy].
  - intros _ _ x. destruct (Z.leb_spec (len x + 1) (len x + 1)); [discriminate|lia].
  - intros _ _ cap x y. destruct (Z.leb_spec (len x + 1) cap); [|discriminate]. intros E. injection E as <-. split; [|split; [reflexivity|intros; reflexivity]]. unfold len in *. cbn [length]. lia.
Qed.
Definition toyc : zstd := Zstd (fun _ _ c x => if len x + 1 <=? c then Some (len x :: x) else None) (unpack toy) (content toy) (cbound toy).

Lemma clamp_used level l : level_used level l -> clamp_level level = l.
Proof. unfold level_used, clamp_level. intros H. destruct (Z.leb_spec level 0); [lia|]. destruct (Z.ltb_spec 22 level); lia. Qed.
Lemma string_level z sum ctx junk level l x : level_used level l -> (sum = true -> ctx = true) -> x <> [] ->
  CompressString z sum ctx junk level x = match pack z l sum (cbound z (len x)) x with Some y => Value y | None => Raise end.
Proof.
  intros U H N. unfold CompressString, ZstdCompressData. rewrite (clamp_used level l U). destruct x; [congruence|].
  replace (sum && negb ctx) with false; [reflexivity|]. destruct sum; [now rewrite H|reflexivity].
Qed.
Lemma header_ok z sum ctx junk main level l n a m : level_used level l -> (sum = true -> ctx = true) -> plain n a -> 0 <= n ->
  CompressDecompressArrays z sum ctx junk main 0 level [OArr a] = Value [OArr m] ->
  exists y pad rest ptr, pack z l sum (cbound z (len (n_data a))) (n_data a) = Some y /\
    n_data m = [253; 1; n_dtype a; 1] ++ le 4 (n_item a) ++ le 4 (n_flags a) ++ pad ++ le 8 n ++ rest ++ le 8 (len y) ++ ptr ++ y /\
    length pad = 4%nat /\ length rest = 16%nat /\ length ptr = 8%nat.
Proof.
  intros U H P N. unfold CompressDecompressArrays. change (0 =? 0) with true. change [OArr a] with (map OArr [a]) at 1. rewrite (build_plain true n [a]) by (auto || lia).
  cbn [map bind each]. destruct (flat_same a) as (F1 & F2 & F3 & F4 & F5). unfold compress_one, ZstdCompressData. rewrite F5.
  replace (sum && negb ctx) with false by (destruct sum; [now rewrite H|reflexivity]). rewrite (clamp_used level l U).
  destruct (pack z l sum _ _) as [y|]; [|discriminate]. destruct (content z _); [|discriminate]. cbn [bind each].
  intros E. assert (E2 : m = uint8_array (zip_header junk (flat a) (len y) ++ y)) by congruence. subst m. cbn [n_data uint8_array].
  destruct P as (D & T & _). unfold zip_header. rewrite F1, F2, F3, F4, D. cbn [app firstn length]. unfold zip_layout. cbn [enc].
  exists y, (le 4 (junk 3%nat)), (le 8 (junk 0%nat) ++ le 8 (junk 1%nat)), (le 8 (junk 4%nat)).
  split; [reflexivity|]. split; [|rewrite app_length, !length_le; auto].
  change (le 1 253) with [253]. change (le 1 1) with [1]. change (le 1 (Z.min 3 (Z.of_nat 1))) with [1].
  replace (le 1 (n_dtype a)) with [n_dtype a] by (cbn [le]; rewrite Z.mod_small by lia; reflexivity).
  rewrite app_nil_r, <- !app_assoc. reflexivity.
Qed.
