(** Critical charge, bit flip probability, upset size. *)
From Coq Require Import List NArith ZArith Bool Arith Lia Reals Lra SpecFloat.
Import ListNotations.
From Flocq Require Import Core BinarySingleNaN.
From Verif Require Import Outcome Words Floats FloatsR HealthFloat Bits_Model RMA3_Proofs Tester3_Proofs Hw_Proofs Hw2_Proofs Qft_Model Qft_Spec Qft2_Proofs Qft4_Proofs Qft5_Proofs.
Local Open Scope R_scope.

Lemma lit_okd x : litb (-1000) 1000 x = true -> okd x. Proof. intros H. exact (proj1 (lit_bnd _ _ _ H)). Qed.
(** comparisons of literals with reals, by an integer inequality *)
Lemma fin_R s m e : R (S754_finite s m e) = IZR (cond_Zopp s (Z.pos m)) * b2 e. Proof. reflexivity. Qed.
Lemma half_R : okd (dq 1 2) /\ R (dq 1 2) = / 2.
Proof. assert (H : dq 1 2 = S754_finite false 4503599627370496 (-53)) by (vm_compute; reflexivity). rewrite H. split; [split; reflexivity|]. unfold R, SF2R, F2R. cbn. lra. Qed.
Definition dec (x : sf) (p q : positive) : Prop := okd x /\ Rabs (R x - IZR (Z.pos p) / IZR (Z.pos q)) <= / 1000000000000000.
Lemma tenth_dec : dec (dq 1 10) 1 10.
Proof. assert (H : dq 1 10 = S754_finite false 7205759403792794 (-56)) by (vm_compute; reflexivity). rewrite H. split; [split; reflexivity|]. unfold R, SF2R, F2R. cbn [cond_Zopp Fnum Fexp]. change (b2 (-56)) with (/ 72057594037927936). apply Rabs_le. lra. Qed.
Lemma three_tenth_dec : dec (dq 3 10) 3 10.
Proof. assert (H : dq 3 10 = S754_finite false 5404319552844595 (-54)) by (vm_compute; reflexivity). rewrite H. split; [split; reflexivity|]. unfold R, SF2R, F2R. cbn [cond_Zopp Fnum Fexp]. change (b2 (-54)) with (/ 18014398509481984). apply Rabs_le. lra. Qed.
Lemma z300 : okd (dofZ 300) /\ R (dofZ 300) = 300. Proof. apply (ofZ_ex 300). lia. Qed.
Lemma z1000 : okd (dofZ 1000) /\ R (dofZ 1000) = 1000. Proof. apply (ofZ_ex 1000). lia. Qed.
Lemma mid_of lo hi t : (-1000000000000 <= lo)%Z -> (hi <= 1000000000000)%Z -> IZR lo <= t <= IZR hi -> mid t.
Proof. intros A B C. apply IZR_le in A, B. unfold mid. lra. Qed.
Lemma rnd_box lo hi t : okd lo -> okd hi -> R lo <= t <= R hi -> R lo <= rnd64 t <= R hi.
Proof. intros L H [A B]. split; [apply rnd64_ge; assumption|apply rnd64_le; assumption]. Qed.
Lemma rnd_int lo hi t : (- 2 ^ 53 < lo)%Z -> (hi < 2 ^ 53)%Z -> IZR lo <= t <= IZR hi -> IZR lo <= rnd64 t <= IZR hi.
Proof.
  intros A B C. assert (G : (lo <= hi)%Z) by (apply le_IZR; lra). destruct (ofZ_ex lo) as [L1 L2]; [lia|]. destruct (ofZ_ex hi) as [H1 H2]; [lia|]. rewrite <- L2, <- H2 in *. apply rnd_box; assumption.
Qed.
Lemma between_bnd a b x : (b2 a <= R x <= b2 b) -> okd x -> bnd a b x. Proof. intros H O. split; assumption. Qed.

Section X.
Variables fexp fpow2 : sf -> sf.
Hypothesis X : exp_lib fexp.
Hypothesis P2 : pow2_lib fpow2.
(** 1 - 0.3 p is between 0.69 and 1 *)
Lemma tf_range p : inr 0 1 p -> bnd (-1) 0 (dsub d1 (dmul (dq 3 10) p)) /\ 69 / 100 <= R (dsub d1 (dmul (dq 3 10) p)) <= 1.
Proof.
  intros [Op Bp]. destruct three_tenth_dec as [O3 E3]. apply Rabs_le_inv in E3.
  assert (M : 0 <= R (dq 3 10) * R p <= 31 / 100) by nra. destruct (mul_d _ _ O3 Op) as [Om Em]; [apply (mid_of 0 1); lia || lra|].
  pose proof (rnd64_abs (R (dq 3 10) * R p) ltac:(lra)) as RA. assert (R0 := rnd_pos _ (proj1 M)). rewrite <- Em in RA, R0.
  destruct (sub_d d1 _ (proj1 o_ok) Om) as [Os Es]; [rewrite (proj2 o_ok); apply (mid_of 0 1); lia || lra|]. rewrite (proj2 o_ok) in Es.
  assert (T : 688 / 1000 <= 1 - R (dmul (dq 3 10) p) <= 1) by lra. pose proof (rnd64_abs (1 - R (dmul (dq 3 10) p)) ltac:(lra)) as RB.
  assert (U : rnd64 (1 - R (dmul (dq 3 10) p)) <= 1) by (apply (rnd_int 0 1); lia || lra). rewrite <- Es in RB, U.
  assert (RQ : R (dq 3 10) * R p <= 3001 / 10000) by nra. assert (69 / 100 <= R (dsub d1 (dmul (dq 3 10) p)) <= 1) by lra. split; [|assumption]. split; [exact Os|]. change (b2 (-1)) with (/ 2). change (b2 0) with 1. lra.
Qed.
Definition warm (t : sf) : Prop := t = d0 \/ bnd (-20) 20 t.
Lemma warm_R t : warm t -> okd t /\ 0 <= R t <= 1048576.
Proof. intros [->|[O B]]; [split; [apply z_ok|rewrite (proj2 z_ok); lra]|split; [exact O|]]. change (b2 (-20)) with (/ 1048576) in B. change (b2 20) with 1048576 in B. lra. Qed.
Lemma warm_cold t : warm t -> cold_or (-300) 300 t.
Proof. intros [->|B]; [left; reflexivity|right; eapply bnd_weak; [exact B|lia|lia]]. Qed.
Lemma cf_range t : warm t -> let cf := dadd d1 (ddiv (dsub t (dofZ 300)) (dofZ 1000)) in bnd (-1) 11 cf /\ 69 / 100 <= R cf <= 71 / 100 + R t / 1000 * (1 + / 1000000000).
Proof.
  intros W. cbv zeta. destruct (warm_R t W) as [Ot Bt]. destruct (sub_d t (dofZ 300) Ot (proj1 z300)) as [Os Es]; [rewrite (proj2 z300); apply (mid_of (-300) 1048576); lia || lra|]. rewrite (proj2 z300) in Es.
  assert (B1 : -300 <= R (dsub t (dofZ 300)) <= R t). { rewrite Es. split; [apply (rnd_int (-300) 1048576); lia || lra|]. rewrite <- (rnd_R 53 1024 t (proj1 Ot)) at 2. apply (rnd_le 53 1024). lra. }
  assert (B1' : R (dsub t (dofZ 300)) <= R t - 299 \/ R (dsub t (dofZ 300)) <= R t) by (right; lra). clear B1'.
  destruct (div_d _ (dofZ 1000) Os (proj1 z1000)) as [Od Ed]; [rewrite (proj2 z1000); lra|rewrite (proj2 z1000); apply (mid_of (-1) 1048576); [lia|lia|lra]|]. rewrite (proj2 z1000) in Ed.
  set (q := R (dsub t (dofZ 300)) / 1000) in *.
  assert (U0 : b2 (-1022) <= 1 / 1000). { apply small_normal. lra. }
  assert (QL : -3 / 10 <= q) by (unfold q; lra). assert (QU : q <= 2000) by (unfold q; lra).
  assert (B2 : -31 / 100 <= rnd64 q). { pose proof (rnd_le 53 1024 _ _ QL) as H. replace (-3 / 10) with (- (3 / 10)) in H by lra. rewrite rnd_opp in H. pose proof (rnd64_abs (3 / 10) ltac:(lra)). lra. }
  assert (B3 : rnd64 q <= 2000) by (apply (rnd_int (-1) 2000); lia || lra).
  destruct (add_d d1 _ (proj1 o_ok) Od) as [Oa Ea]; [rewrite (proj2 o_ok), Ed; apply (mid_of 0 2001); lia || lra|]. rewrite (proj2 o_ok), Ed in Ea.
  assert (B4 : 69 / 100 - / 1000 <= 1 + rnd64 q) by lra.
  (* sharper lower bound *)
  assert (B2' : -301 / 1000 <= rnd64 q). { pose proof (rnd_le 53 1024 _ _ QL) as H. replace (-3 / 10) with (- (3 / 10)) in H by lra. rewrite rnd_opp in H. pose proof (rnd64_abs (3 / 10) ltac:(lra)). lra. }
  assert (LO : 69 / 100 <= rnd64 (1 + rnd64 q)). { pose proof (rnd_le 53 1024 (699 / 1000) (1 + rnd64 q) ltac:(lra)) as H. pose proof (rnd64_abs (699 / 1000) ltac:(lra)). lra. }
  assert (N1 : b2 (-1022) <= 1 + rnd64 q) by (apply small_normal; lra). pose proof (rnd64_rel _ N1) as RR.
  assert (HI : rnd64 (1 + rnd64 q) <= 71 / 100 + R t / 1000 * (1 + / 1000000000)).
  { assert (QT : q <= R t / 1000 - 2999 / 10000).
    { unfold q. rewrite Es. destruct (Rle_or_lt 1 (R t)).
      - assert (RS : rnd64 (R t - 300) <= R t - 2999 / 10).
        { destruct (Rle_or_lt (R t) 300). - pose proof (rnd_int (-300) 0 (R t - 300) ltac:(lia) ltac:(lia) ltac:(lra)).
            assert (A : 300 - R t <= 300) by lra. destruct (Rle_or_lt (/ 1000) (300 - R t)).
            + assert (NN : b2 (-1022) <= 300 - R t) by (apply small_normal; lra). pose proof (rnd64_rel _ NN) as Q. replace (R t - 300) with (- (300 - R t)) by ring. rewrite rnd_opp. lra.
            + lra.
          - destruct (Rle_or_lt (/ 1000) (R t - 300)); [assert (NN : b2 (-1022) <= R t - 300) by (apply small_normal; lra); pose proof (rnd64_rel _ NN); lra|].
            assert (NN : b2 (-1022) <= / 1000) by (apply small_normal; lra). pose proof (rnd64_rel _ NN). pose proof (rnd_le 53 1024 (R t - 300) (/ 1000) ltac:(lra)). lra. }
        lra.
      - pose proof (rnd_le 53 1024 (R t - 300) (R t - 300) ltac:(lra)). replace (R t - 300) with (- (300 - R t)) by ring. rewrite rnd_opp. assert (NN : b2 (-1022) <= 300 - R t) by (apply small_normal; lra). pose proof (rnd64_rel _ NN). lra. }
    assert (RQ : rnd64 q <= R t / 1000 * (1 + / 100000000000) - 2998 / 10000).
    { destruct (Rle_or_lt 0 q) as [Q0|Q0].
      - destruct (Rle_or_lt (/ 1000) q); [assert (NN : b2 (-1022) <= q) by (apply small_normal; lra); pose proof (rnd64_rel _ NN); lra|].
        assert (NN : b2 (-1022) <= / 1000) by (apply small_normal; lra). pose proof (rnd64_abs q ltac:(lra)). lra.
      - replace q with (- (- q)) by ring. rewrite rnd_opp. pose proof (rnd64_abs (- q) ltac:(lra)). lra. }
    lra. }
  split; [|rewrite Ea; split; assumption]. split; [exact Oa|]. change (b2 (-1)) with (/ 2). change (b2 11) with 2048. rewrite Ea. split; [lra|]. apply (rnd_int 0 2048); lia || lra.
Qed.
(** the critical charge *)
Lemma half_exact a b x : bnd a b x -> (-900 <= a)%Z -> (b <= 900)%Z -> R (dmul x (dq 1 2)) = R x / 2 /\ bnd (a - 1) (b - 1) (dmul x (dq 1 2)).
Proof.
  intros B A C. assert (H : bnd (-1) (-1) (dq 1 2)). { split; [apply half_R|]. rewrite (proj2 half_R). change (b2 (-1)) with (/ 2). lra. }
  destruct (bnd_mul a b (-1) (-1) x (dq 1 2) B H) as [B' E']; [lia|lia|]. replace (a + -1)%Z with (a - 1)%Z in B' by lia. replace (b + -1)%Z with (b - 1)%Z in B' by lia. split; [|exact B']. rewrite E', (proj2 half_R).
  unfold Rdiv. change (/ 2) with (b2 (-1)). destruct (bnd_shape _ _ _ B) as (m & e & ->). destruct B as [[V _] [L _]].
  unfold rnd. apply round_generic; [apply valid_rnd_N|].
  assert (G : generic_format radix2 (SpecFloat.fexp 53 1024) (R (S754_finite false m e))). { pose proof (lift_R 53 1024 _ V) as LR. rewrite <- LR. apply generic_format_B2R. }
  assert (MG : (a < mag radix2 (R (S754_finite false m e)))%Z).
  { apply (mag_gt_bpow radix2). pose proof (bpow_gt_0 radix2 a). rewrite Rabs_pos_eq by lra. exact L. }
  assert (NZ : R (S754_finite false m e) <> 0) by (pose proof (bpow_gt_0 radix2 a); lra).
  unfold generic_format in G |- *. unfold scaled_mantissa, cexp in *. rewrite mag_mult_bpow by exact NZ.
  set (mg := mag radix2 (R (S754_finite false m e))) in *. set (v := R (S754_finite false m e)) in *.
  assert (F1 : SpecFloat.fexp 53 1024 (mg + -1) = (SpecFloat.fexp 53 1024 mg + -1)%Z) by (unfold SpecFloat.fexp, emin; lia). rewrite F1.
  assert (MM : v * b2 (-1) * b2 (- (SpecFloat.fexp 53 1024 mg + -1)) = v * b2 (- SpecFloat.fexp 53 1024 mg)).
  { rewrite Rmult_assoc, <- bpow_plus. f_equal. f_equal. lia. }
  rewrite MM. rewrite G at 1. unfold F2R. cbn [Fnum Fexp]. rewrite bpow_plus. ring.
Qed.
Lemma crit_range m base t : bnd (-20) 20 (bandgap m) -> bnd (-24) 24 base -> warm t ->
  bnd (-25) 35 (criticalCharge fexp m base t) /\ R base / 2 <= R (criticalCharge fexp m base t) <= R base * (71 / 100 + R t / 1000) * (1 + / 100000000).
Proof.
  intros G B W. unfold criticalCharge. cbv zeta. assert (PR : inr 0 1 (er_tunnel fexp (bandgap m) t)) by (apply (er_range fexp X); [eapply bnd_weak; [exact G|lia|lia]|apply warm_cold; exact W]).
  destruct (tf_range _ PR) as [T1 T2]. destruct (cf_range t W) as [C1 C2]. set (tf := dsub d1 _) in *. set (cf := dadd d1 _) in *.
  destruct (warm_R t W) as [Ot Bt]. destruct (bnd_mul _ _ _ _ _ _ B T1) as [M1 E1]; try lia. destruct (bnd_mul _ _ _ _ _ _ M1 C1) as [M2 E2]; try lia.
  destruct (half_exact _ _ _ B) as [HE HB]; try lia. destruct (fmax_d _ _ (proj1 M2) (proj1 HB)) as [OM EM].
  assert (UP : R (dmul (dmul base tf) cf) <= R base * (71 / 100 + R t / 1000) * (1 + / 100000000)).
  { pose proof (bnd_pos _ _ _ B) as PB. assert (N1 : b2 (-1022) <= R base * R tf). { apply (normal (-25)); [lia|]. replace (b2 (-25)) with (b2 (-24) * / 2) by (change (-25)%Z with (-24 + -1)%Z; rewrite bpow_plus; reflexivity). destruct B as [_ [BL _]]. pose proof (bpow_gt_0 radix2 (-24)). apply Rmult_le_compat; lra. }
    pose proof (rnd64_rel _ N1) as R1. rewrite <- E1 in R1. set (x1 := R (dmul base tf)) in *.
    assert (X1 : 0 < x1 <= R base * (1 + / 1000000000000)). { pose proof (bnd_pos _ _ _ M1) as PM. fold x1 in PM. split; [exact PM|]. assert (R base * R tf <= R base) by nra. nra. }
    assert (N2 : b2 (-1022) <= x1 * R cf). { apply (normal (-26)); [lia|]. replace (b2 (-26)) with (b2 (-25) * / 2) by (change (-26)%Z with (-25 + -1)%Z; rewrite bpow_plus; reflexivity). destruct M1 as [_ [BL _]]. fold x1 in BL. change (-24 + -1)%Z with (-25)%Z in BL. pose proof (bpow_gt_0 radix2 (-25)). apply Rmult_le_compat; lra. }
    pose proof (rnd64_rel _ N2) as R2. rewrite <- E2 in R2. set (x2 := R (dmul (dmul base tf) cf)) in *. set (c := R cf) in *. set (bb := R base) in *.
    assert (CC : 0 < c <= (71 / 100 + R t / 1000) * (1 + / 1000000000)) by lra. set (k := 71 / 100 + R t / 1000) in *. assert (KP : 0 < k) by (unfold k; lra).
    assert (XC : x1 * c <= (bb * (1 + / 1000000000000)) * (k * (1 + / 1000000000))) by (apply Rmult_le_compat; lra). assert (BK : 0 < bb * k) by nra.
    clear -R2 XC BK. nra. }
  split.
  - split; [exact OM|]. rewrite EM. change (-25)%Z with (-24 - 1)%Z. destruct M2 as [_ M2], HB as [_ HB]. split; [apply Rle_trans with (R (dmul base (dq 1 2))); [lra|apply Rmax_r]|]. apply Rmax_lub; [exact (proj2 M2)|]. apply Rle_trans with (1 := proj2 HB). apply bpow_le. lia.
  - rewrite EM. split; [rewrite <- HE; apply Rmax_r|]. apply Rmax_lub; [exact UP|]. rewrite HE. pose proof (bnd_pos _ _ _ B). nra.
Qed.
(** the Weibull part *)
Lemma one_bnd : bnd 0 0 d1. Proof. split; [apply o_ok|]. rewrite (proj2 o_ok). change (b2 0) with 1. lra. Qed.
Lemma pow2_nneg r : nneg r -> nneg (fpow2 r).
Proof.
  intros [[V N] _]. destruct P2 as [PD PP _]. pose proof (PP r V N) as H. assert (D : dbl (fpow2 r)). { split; [exact (PD r V)|]. intros C. rewrite C in H. discriminate. }
  split; [exact D|]. apply (leE d0 _ (okd_dbl _ (proj1 z_ok)) D) in H. rewrite E0 in H. exact H.
Qed.
Definition weibull (ratio : sf) : sf := dsub d1 (fexp (SFopp (fpow2 (ddiv ratio d1)))).
Lemma weibull_range r : nneg r -> inr 0 1 (weibull r) /\ R (weibull r) = rnd64 (1 - R (fexp (SFopp (fpow2 (ddiv r d1))))).
Proof.
  intros N. assert (X1 : inr 0 1 (fexp (SFopp (fpow2 (ddiv r d1))))). { apply (neg_exp fexp X), nneg_opp, pow2_nneg. exact (nneg_div r d1 0 0 N one_bnd). }
  destruct X1 as [O B]. unfold weibull. destruct (sub_d d1 _ (proj1 o_ok) O) as [Os Es]; [rewrite (proj2 o_ok); apply (mid_of 0 1); lia || lra|]. rewrite (proj2 o_ok) in Es. split; [|exact Es]. split; [exact Os|]. rewrite Es. apply (rnd_int 0 1); lia || lra.
Qed.
Lemma tenth_mul p : inr 0 1 p -> inr 0 (11 / 100) (dmul p (dq 1 10)) /\ R p * (99 / 1000) - / 1000000 <= R (dmul p (dq 1 10)).
Proof.
  intros [O B]. destruct tenth_dec as [OT T]. apply Rabs_le_inv in T. destruct (mul_d p (dq 1 10) O OT) as [Om Em]; [apply (mid_of 0 1); [lia|lia|nra]|].
  assert (M : 0 <= R p * R (dq 1 10) <= 101 / 1000) by nra. pose proof (rnd64_abs (R p * R (dq 1 10)) ltac:(lra)) as RA. pose proof (rnd_pos _ (proj1 M)) as R0. rewrite Em. split; [split; [exact Om|rewrite Em; lra]|]. assert (R p * (99 / 1000) <= R p * R (dq 1 10)) by nra. lra.
Qed.
Lemma flip_range m charge t temp : bnd (-20) 20 (bandgap m) -> bnd (-20) 20 (crit_fc m) -> warm temp -> dbl charge -> inr 0 1 (bitFlipProbability fexp fpow2 m charge t temp).
Proof.
  intros G C W D. unfold bitFlipProbability. cbv zeta. assert (DF : bnd (-1) 4 (device_factor t)) by (destruct t; apply lit_bnd; vm_compute; reflexivity).
  destruct (bnd_mul _ _ _ _ _ _ C DF) as [BB1 _]; try lia. destruct (crit_range m _ temp G (bnd_weak _ _ (-24) 24 _ BB1 ltac:(lia) ltac:(lia)) W) as [CB _].
  set (crit := criticalCharge _ _ _ _) in *. destruct (fle charge d0) eqn:L; cbn [orb]; [split; [apply z_ok|rewrite (proj2 z_ok); lra]|].
  destruct (fle crit d0); [split; [apply z_ok|rewrite (proj2 z_ok); lra]|].
  assert (N : nneg charge). { split; [exact D|]. destruct (Rle_or_lt (E charge) 0) as [Q|Q]; [|lra]. rewrite <- E0 in Q. apply (leE charge d0 D (okd_dbl _ (proj1 z_ok))) in Q. congruence. }
  assert (NR := nneg_div charge crit _ _ N CB). destruct (weibull_range _ NR) as [[OW BW] _]. fold (weibull (ddiv charge crit)). apply clamp01.
  destruct (flt (ddiv charge crit) (dq 1 10)); [|apply okd_dbl; exact OW].
  destruct (tenth_mul (er_tunnel fexp (bandgap m) temp)) as [[OT BT] _]; [apply (er_range fexp X); [eapply bnd_weak; [exact G|lia|lia]|apply warm_cold; exact W]|].
  apply okd_dbl. apply (add_d _ _ OW OT). apply (mid_of 0 2); lia || lra.
Qed.
(** for ratios of a tenth and more it grows with the charge *)
Definition pow2_mono : Prop := forall x y, is_double x -> is_double y -> fle d0 x = true -> fle x y = true -> fle (fpow2 x) (fpow2 y) = true.
Lemma weibull_mono r r' : lib_mono fexp -> pow2_mono -> nneg r -> nneg r' -> E r <= E r' -> R (weibull r) <= R (weibull r').
Proof.
  intros XM PM N N' L. rewrite (proj2 (weibull_range r N)), (proj2 (weibull_range r' N')). apply (rnd_le 53 1024).
  pose proof (nneg_div r d1 0 0 N one_bnd) as Q. pose proof (nneg_div r' d1 0 0 N' one_bnd) as Q'. pose proof (nneg_div_mono r r' d1 0 0 N N' one_bnd L) as LQ.
  set (q := ddiv r d1) in *. set (q' := ddiv r' d1) in *. pose proof (pow2_nneg q Q) as S1. pose proof (pow2_nneg q' Q') as S1'.
  assert (LS : fle (fpow2 q) (fpow2 q') = true).
  { apply PM; [apply Q|apply Q'| |]; [apply (leE d0 q (okd_dbl _ (proj1 z_ok)) (proj1 Q)); rewrite E0; apply Q|apply (leE q q' (proj1 Q) (proj1 Q')); exact LQ]. }
  apply (leE _ _ (proj1 S1) (proj1 S1')) in LS. pose proof (nneg_opp _ S1) as O1. pose proof (nneg_opp _ S1') as O1'.
  destruct (neg_exp fexp X _ O1) as [OX _]. destruct (neg_exp fexp X _ O1') as [OX' _].
  assert (LX : fle (fexp (SFopp (fpow2 q'))) (fexp (SFopp (fpow2 q))) = true). { apply XM; [apply O1'|apply O1|]. apply (leE _ _ (proj1 O1') (proj1 O1)). rewrite !opp_E. lra. }
  apply (fle_d _ _ OX' OX) in LX. lra.
Qed.
End X.
