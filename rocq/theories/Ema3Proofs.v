(** Running values: where they go wrong. *)
From Verif Require Import Base Mem AccumSpec EmaModel EmaSpec EmaProofs Ema2Proofs.
From Coq Require Import Reals Lra.
Local Open Scope nat_scope.

Lemma expd x : exp (- x) = (/ exp x)%R.
Proof. apply exp_Ropp. Qed.
(** filter and reset: zero everywhere *)
Lemma decay_both : exists keys (src times : list R) im rm,
  EmaDecay keys src times 1 (Some im) (Some rm) (-1)%R (fun x => x) 0%R Rplus Rmult (fun a b => Some (a - b)%R) (fun x => exp (- 1 * x)) 0%R 0%R = Some [Some 0%R] /\
  accepted keys (Some im) (Some rm) (Some times) /\ ~ decay_row (fun x => x) (fun x => x) 1%R keys src times (Some im) (Some rm) 0 0%R.
Proof.
  exists [1%Z], [1%R], [0%R], [true], [false]. split; [reflexivity |]. split; [repeat split |]. intros H. destruct (H 1%Z eq_refl) as (s & vs & ts & ti & S & P1 & P2 & E & D).
  change (filter (on true (Some [true])) (before [1%Z] 1 1)) with [0] in S.
  assert (s = [0]) as ->. { inversion S as [l F | p j s' R F Ep Es]; subst; auto. exfalso. destruct p as [| a [|]]; [| discriminate..]. injection Ep as -> _. discriminate. }
  destruct vs as [| v [|]]; try discriminate. destruct ts as [| t [|]]; try discriminate. cbn in P1, P2, E. injection P1 as <-. injection P2 as <-. injection E as <-.
  unfold decayed in D. cbn in D. replace (- (1) * (0 - 0))%R with 0%R in D by ring. rewrite exp_0 in D. lra.
Qed.
(** unsigned times that go back *)
Lemma decay_unsigned : exists keys (src : list R) (times : list Z) res r,
  EmaDecay keys src times 1 None None (-1)%R (fun x => x) 0%R Rplus Rmult deltaU32 (fun x => exp (- 1 * x)) 0%Z 0%R = Some res /\
  accepted keys None None (Some times) /\ nth_error res 1 = Some (Some r) /\ ~ decay_row (fun x => x) IZR 1%R keys src times None None 1 r.
Proof.
  exists [1; 1]%Z, [1; 0]%R, [1; 0]%Z. eexists _, _. split; [reflexivity |]. split; [repeat split |]. split; [reflexivity |]. cbn [fst snd].
  intros H. destruct (H 1%Z eq_refl) as (s & vs & ts & ti & S & P1 & P2 & E & D).
  change (filter (on true None) (before [1; 1]%Z 1 2)) with [0; 1] in S. apply since_none in S. subst s.
  destruct vs as [| v0 [| v1 [|]]]; try discriminate. destruct ts as [| t0 [| t1 [|]]]; try discriminate. cbn in P1, P2, E. injection P1 as <- <-. injection P2 as <- <-. injection E as <-.
  revert D. unfold decayed. cbn [combine map fold_right fst snd]. change ((0 - 1) mod 2 ^ 32)%Z with 4294967295%Z.
  replace (- (1) * (0 - 1))%R with 1%R by ring. intros D.
  pose proof (exp_increasing (-1 * 4294967295) 0 ltac:(lra)) as A. pose proof (exp_increasing 0 1 ltac:(lra)) as A2. rewrite exp_0 in A, A2.
  replace (0 + (1 + 0 * exp (-1 * IZR ((1 - 0) mod 2 ^ 32))) * exp (-1 * 4294967295))%R with (exp (-1 * 4294967295)) in D by ring. lra.
Qed.
(** a reset at time 0: not the value of the row but 0 *)
Lemma normal_reset : exists keys (src times : list R) rm r,
  EmaNormal keys src times None (Some rm) (-1)%R (fun x => x) 0%R 1%R Rplus Rminus Rmult (fun a b => Some (a - b)%R) negativeR (fun x => exp (- 1 * x)) 0%R (- 2 ^ 63)%R 0%R [0; 0]%R = Some [Some r] /\
  accepted keys None (Some rm) (Some times) /\ nth_error src 0 = Some 5%R /\ r = 0%R.
Proof.
  exists [1%Z], [5%R], [0%R], [true]. eexists. split; [reflexivity |]. split; [repeat split |]. split; [reflexivity |]. cbn [fst snd].
  unfold negativeR. destruct (Rlt_dec (0 - 0) 0); [lra |]. replace (-1 * (0 - 0))%R with 0%R by ring. rewrite exp_0. ring.
Qed.
(** int64 times: the first difference overflows for every time that is not negative *)
Lemma normal_int64 : exists keys (src : list R) (times : list Z),
  EmaNormal keys src times None None (-1)%R (fun x => x) 0%R 1%R Rplus Rminus Rmult delta64 negativeR (fun x => exp (- 1 * x)) 0%Z (- 2 ^ 63)%Z 0%R [0; 0]%R = None /\
  accepted keys None None (Some times).
Proof. exists [1%Z], [5%R], [0%Z]. split; [reflexivity | repeat split]. Qed.
(** the value of a row that is not included *)
Lemma normal_excluded : exists keys (src src' times : list R) im r r',
  EmaNormal keys src times (Some im) None (-1)%R (fun x => x) 0%R 1%R Rplus Rminus Rmult (fun a b => Some (a - b)%R) negativeR (fun x => exp (0 * x)) 0%R (- 2 ^ 63)%R 0%R [0; 0]%R = Some r /\
  EmaNormal keys src' times (Some im) None (-1)%R (fun x => x) 0%R 1%R Rplus Rminus Rmult (fun a b => Some (a - b)%R) negativeR (fun x => exp (0 * x)) 0%R (- 2 ^ 63)%R 0%R [0; 0]%R = Some r' /\
  (forall i, nth i im false = true -> nth_error src i = nth_error src' i) /\ r <> r'.
Proof.
  exists [1; 1]%Z, [5; 7]%R, [6; 7]%R, [0; 0]%R, [false; true]. eexists _, _. split; [reflexivity |]. split; [reflexivity |]. split.
  - intros [| [| [| i]]]; cbn; auto; discriminate.
  - cbn [fst snd]. unfold negativeR. destruct (Rlt_dec (0 - - 2 ^ 63) 0) as [A | A]; [exfalso; lra |]. replace (0 * (0 - - 2 ^ 63))%R with 0%R by ring. rewrite exp_0. intros [= E _]. lra.
Qed.
Lemma types_ok f it tt o u : GetEmaByFunction f it tt = Some (o, u) -> tt <> LD -> o = u.
Proof. destruct f, it, tt; cbn; intros [= <- <-] H; auto; now destruct H. Qed.
