(** Distances and orbits. *)
From Coq Require Import List NArith ZArith Bool Arith Lia Reals Lra SpecFloat.
Import ListNotations.
From Flocq Require Import Core BinarySingleNaN.
From Flocq.Prop Require Sterbenz.
From Verif Require Import Outcome Words Floats FloatsR HealthFloat RMA3_Proofs BitsFloat_Proofs Tester3_Proofs Hw_Proofs Hw2_Proofs Qft_Model Qft_Spec Qft2_Proofs Qft4_Proofs Qft5_Proofs Qft6_Proofs Qer3_Proofs Env_Model EnvB_Spec Env3_Proofs Env4_Proofs Env5_Proofs Env6_Proofs.
Local Open Scope Z_scope.

(** ** signs *)
Lemma opp_opp x : SFopp (SFopp x) = x. Proof. destruct x as [[]|[]| |[] m e]; reflexivity. Qed.
Lemma bra_opp s m e l : SFopp (SpecFloat.binary_round_aux 53 1024 s m e l) = SpecFloat.binary_round_aux 53 1024 (negb s) m e l.
Proof.
  unfold SpecFloat.binary_round_aux. destruct (shr_fexp 53 1024 m e l) as [r1 e1]. destruct (shr_fexp 53 1024 _ e1 loc_Exact) as [r2 e2].
  destruct (shr_m r2); try reflexivity. destruct (e2 <=? 1024 - 53); reflexivity.
Qed.
Lemma br_opp s m e : SFopp (SpecFloat.binary_round 53 1024 s m e) = SpecFloat.binary_round 53 1024 (negb s) m e.
Proof. unfold SpecFloat.binary_round. match goal with |- context [let (_, _) := ?x in _] => destruct x end. apply bra_opp. Qed.
Lemma mul_opp_l x y : dmul (SFopp x) y = SFopp (dmul x y).
Proof. unfold dmul, SFmul. destruct x as [a|a| |a m e], y as [b|b| |b n f]; cbn [SFopp]; try reflexivity; try (destruct a, b; reflexivity). rewrite bra_opp. f_equal. destruct a, b; reflexivity. Qed.
Lemma mul_comm x y : dmul x y = dmul y x.
Proof. unfold dmul, SFmul. destruct x as [a|a| |a m e], y as [b|b| |b n f]; try reflexivity; try (destruct a, b; reflexivity). rewrite (Bool.xorb_comm a b), (Pos.mul_comm m n), (Z.add_comm e f). reflexivity. Qed.
Lemma mul_opp_r x y : dmul x (SFopp y) = SFopp (dmul x y).
Proof. rewrite mul_comm, mul_opp_l, mul_comm. reflexivity. Qed.
Lemma div_opp_l x y : ddiv (SFopp x) y = SFopp (ddiv x y).
Proof.
  unfold ddiv, SFdiv. destruct x as [a|a| |a m e], y as [b|b| |b n f]; cbn [SFopp]; try reflexivity; try (destruct a, b; reflexivity).
  destruct (SFdiv_core_binary 53 1024 (Z.pos m) e (Z.pos n) f) as [[mz ez] lz]. rewrite bra_opp. f_equal. destruct a, b; reflexivity.
Qed.
Definition pm (x y : sf) : Prop := y = x \/ y = SFopp x.
Lemma bn_opp k e : pm (SpecFloat.binary_normalize 53 1024 k e false) (SpecFloat.binary_normalize 53 1024 (- k) e false).
Proof. destruct k as [|k|k]; cbn [Z.opp SpecFloat.binary_normalize]; [left; reflexivity|right; rewrite br_opp; reflexivity|right; rewrite br_opp; reflexivity]. Qed.
Lemma sub_pm x y : pm (dsub x y) (dsub y x).
Proof.
  unfold dsub, SFsub. destruct x as [a|a| |a m e], y as [b|b| |b n f]; try (left; reflexivity); try (right; reflexivity); try (destruct a, b; (left; reflexivity) || (right; reflexivity)).
  cbv zeta. rewrite (Z.min_comm f e). match goal with |- pm (SpecFloat.binary_normalize _ _ ?k _ _) (SpecFloat.binary_normalize _ _ ?j _ _) => replace j with (- k) by lia end. apply bn_opp.
Qed.
Lemma sub_self x : is_finite_SF x = true -> dsub x x = d0.
Proof. unfold dsub, SFsub. destruct x as [a|a| |a m e]; try discriminate; intros _; [destruct a; reflexivity|]. cbv zeta. rewrite Z.sub_diag. reflexivity. Qed.

(** ** distances *)
Section D.
Variables (fsin fcos : sf -> sf) (fatan2 : sf -> sf -> sf).
Hypothesis ODD : forall x, fsin (SFopp x) = SFopp (fsin x).
Lemma radians_pm x y : pm x y -> pm (radians x) (radians y).
Proof. intros [->| ->]; [left; reflexivity|right]. unfold radians. rewrite mul_opp_l, div_opp_l. reflexivity. Qed.
Lemma half_sin_pm x y : pm x y -> pm (fsin (ddiv x (dofZ 2))) (fsin (ddiv y (dofZ 2))).
Proof. intros [->| ->]; [left; reflexivity|right]. rewrite div_opp_l. apply ODD. Qed.
Lemma square_pm x y : pm x y -> dmul x x = dmul y y.
Proof. intros [->| ->]; [reflexivity|]. rewrite mul_opp_l, mul_opp_r, opp_opp. reflexivity. Qed.
Lemma twice_pm c x y : pm x y -> dmul (dmul c x) x = dmul (dmul c y) y.
Proof. intros [->| ->]; [reflexivity|]. rewrite !mul_opp_r, mul_opp_l, opp_opp. reflexivity. Qed.
Lemma abs_pm x y : pm x y -> dabs x = dabs y.
Proof. intros [->| ->]; [reflexivity|]. destruct x as [[]|[]| |[] m e]; reflexivity. Qed.
Lemma distance_sym p q : distanceTo fsin fcos fatan2 p q = distanceTo fsin fcos fatan2 q p.
Proof.
  unfold distanceTo. cbv zeta. rewrite (abs_pm _ _ (sub_pm (alt p) (alt q))). rewrite (mul_comm (fcos (radians (lat p)))).
  rewrite (square_pm _ _ (half_sin_pm _ _ (radians_pm _ _ (sub_pm (lat q) (lat p))))). rewrite (twice_pm _ _ _ (half_sin_pm _ _ (radians_pm _ _ (sub_pm (lon q) (lon p))))). reflexivity.
Qed.
Hypothesis Z0 : fsin d0 = d0.
Hypothesis A0 : fatan2 d0 d1 = d0.
Lemma distance_self p : finite_double (lat p) -> finite_double (lon p) -> finite_double (alt p) -> is_finite_SF (fcos (radians (lat p))) = true -> (Rabs (R (fcos (radians (lat p)))) <= 1)%R -> is_double (fcos (radians (lat p))) ->
  distanceTo fsin fcos fatan2 p p = d0.
Proof.
  intros (_ & A) (_ & B) (_ & D) F L V. unfold distanceTo. cbv zeta. rewrite !sub_self by assumption.
  assert (Q : ddiv (radians d0) (dofZ 2) = d0) by (vm_compute; reflexivity). rewrite Q, Z0. assert (CF : is_finite_SF (dmul (fcos (radians (lat p))) (fcos (radians (lat p)))) = true).
  { apply (proj1 (mul_d _ _ (conj V F) (conj V F) ltac:(apply Rabs_le_inv in L; unfold mid; nra))). }
  destruct (dmul (fcos (radians (lat p))) (fcos (radians (lat p)))) as [s|s| |s m e]; try discriminate CF.
  - assert (W : dadd (dmul d0 d0) (dmul (dmul (S754_zero s) d0) d0) = d0) by (destruct s; vm_compute; reflexivity). rewrite W.
    assert (W2 : Qft_Model.sqrt_d d0 = d0) by (vm_compute; reflexivity). assert (W3 : Qft_Model.sqrt_d (dsub d1 d0) = d1) by (vm_compute; reflexivity). rewrite W2, W3, A0. vm_compute. reflexivity.
  - assert (W : dadd (dmul d0 d0) (dmul (dmul (S754_finite s m e) d0) d0) = d0) by (destruct s; reflexivity). rewrite W.
    assert (W2 : Qft_Model.sqrt_d d0 = d0) by (vm_compute; reflexivity). assert (W3 : Qft_Model.sqrt_d (dsub d1 d0) = d1) by (vm_compute; reflexivity). rewrite W2, W3, A0. vm_compute. reflexivity.
Qed.
End D.

(** ** fmod *)
Local Open Scope R_scope.
Lemma scaled m e b : (b <= e)%Z -> IZR (m * 2 ^ (e - b)) * b2 b = IZR m * b2 e.
Proof. intros L. rewrite mult_IZR. change (2 ^ (e - b))%Z with (radix2 ^ (e - b))%Z. rewrite (IZR_Zpower radix2 (e - b)) by lia. rewrite Rmult_assoc, <- bpow_plus. f_equal. f_equal. lia. Qed.
Lemma valid_fin s m e : is_double (S754_finite s m e) -> (Z.pos m < 2 ^ 53 /\ -1074 <= e)%Z.
Proof.
  unfold is_double, valid_binary, SpecFloat.valid_binary, SpecFloat.bounded. intros H. apply andb_prop in H. destruct H as (H & _). unfold SpecFloat.canonical_mantissa in H. apply Zeq_bool_eq in H. unfold SpecFloat.fexp, SpecFloat.emin in H.
  assert (D : (Z.pos (digits2_pos m) <= 53)%Z) by lia. split; [|lia]. rewrite Digits.Zpos_digits2_pos in D. apply (Digits.Zpower_gt_Zdigits radix2 53 (Z.pos m)). exact D.
Qed.
Lemma exact_norm k b z : (Z.abs k < 2 ^ 53)%Z -> (-1074 <= b)%Z -> Rabs (IZR k * b2 b) < b2 1024 ->
  okd (SpecFloat.binary_normalize 53 1024 k b z) /\ R (SpecFloat.binary_normalize 53 1024 k b z) = IZR k * b2 b.
Proof.
  intros K B U. assert (G : rnd64 (IZR k * b2 b) = IZR k * b2 b) by (apply BitsFloat_Proofs.fmt64; lia).
  pose proof (binary_normalize_correct 53 1024 ltac:(reflexivity) ltac:(reflexivity) mode_NE k b z) as H. cbv zeta in H. unfold F2R in H. cbn [Fnum Fexp] in H.
  assert (G2 : round radix2 (SpecFloat.fexp 53 1024) (round_mode mode_NE) (IZR k * b2 b) = IZR k * b2 b) by exact G. rewrite G2 in H. rewrite Rlt_bool_true in H by exact U. destruct H as (H1 & H2 & _).
  rewrite (bn_equiv 53 1024 (Hp := ltac:(reflexivity)) (Hm := ltac:(reflexivity))). unfold okd, R, fin. rewrite SF2R_B2SF, is_finite_SF_B2SF, valid_binary_B2SF. split; [split; [reflexivity|exact H2]|exact H1].
Qed.
(** the remainder of a division by a positive number: exact, smaller than the divisor, with the sign of the dividend *)
Lemma fmod_ok x y : okd x -> okd y -> 0 < R y -> let r := dfmod x y in okd r /\ Rabs (R r) < R y /\ (0 <= R x -> 0 <= R r) /\ (R x <= 0 -> R r <= 0) /\ exists k : Z, R x = R r + IZR k * R y.
Proof.
  intros Ox Oy P. destruct y as [t|t| |t n k]; try (destruct Oy; discriminate); [rewrite zR in P; lra|]. destruct t; [exfalso; rewrite fin_R in P; cbn [cond_Zopp] in P; pose proof (bpow_gt_0 radix2 k); assert (IZR (- Z.pos n) <= 0) by (apply IZR_le; lia); nra|].
  destruct x as [s|s| |s m e]; try (destruct Ox; discriminate).
  - cbn [dfmod]. cbv zeta. rewrite zR, Rabs_R0. split; [split; reflexivity|]. split; [exact P|]. split; [lra|]. split; [lra|]. exists 0%Z. lra.
  - cbn [dfmod]. destruct (valid_fin _ _ _ (proj1 Ox)) as (DM & EM). destruct (valid_fin _ _ _ (proj1 Oy)) as (DN & EN). set (b := Z.min e k). set (X := (Z.pos m * 2 ^ (e - b))%Z). set (Y := (Z.pos n * 2 ^ (k - b))%Z).
    assert (LB : (b <= e /\ b <= k /\ -1074 <= b /\ (b = e \/ b = k))%Z) by (unfold b; lia). destruct LB as (Be & Bk & Bm & Bo).
    assert (Y0 : (0 < Y)%Z) by (unfold Y; apply Z.mul_pos_pos; [lia|apply Z.pow_pos_nonneg; lia]). assert (X0 : (0 < X)%Z) by (unfold X; apply Z.mul_pos_pos; [lia|apply Z.pow_pos_nonneg; lia]).
    pose proof (Z.mod_pos_bound X Y Y0) as MB. pose proof (Z.mod_le X Y ltac:(lia) Y0) as ML. pose proof (Z.div_mod X Y ltac:(lia)) as DV. set (r := (X mod Y)%Z) in *. set (q := (X / Y)%Z) in *.
    assert (RB : (r < 2 ^ 53)%Z). { destruct Bo as [Q|Q]; [assert (X = Z.pos m) by (unfold X; rewrite Q, Z.sub_diag; lia); lia|assert (Y = Z.pos n) by (unfold Y; rewrite Q, Z.sub_diag; lia); lia]. }
    assert (HX : IZR X * b2 b = IZR (Z.pos m) * b2 e) by (apply scaled; exact Be). assert (HY : IZR Y * b2 b = R (S754_finite false n k)) by (rewrite fin_R; cbn [cond_Zopp]; apply scaled; exact Bk).
    assert (RX : R (S754_finite s m e) = (if s then -1 else 1) * (IZR X * b2 b)) by (rewrite HX, fin_R; destruct s; cbn [cond_Zopp]; [rewrite opp_IZR|]; ring).
    pose proof (bpow_gt_0 radix2 b) as PB. assert (LT : IZR r * b2 b < R (S754_finite false n k)). { rewrite <- HY. apply Rmult_lt_compat_r; [exact PB|]. apply IZR_lt. lia. } assert (R0 : 0 <= IZR r) by (apply IZR_le; lia). assert (R1 : 0 <= IZR r * b2 b) by (apply Rmult_le_pos; lra).
    assert (XQ : IZR X * b2 b = IZR q * R (S754_finite false n k) + IZR r * b2 b). { rewrite <- HY. rewrite DV at 1. rewrite plus_IZR, mult_IZR. ring. } assert (PX : 0 < IZR X * b2 b) by (apply Rmult_lt_0_compat; [apply IZR_lt; exact X0|exact PB]).
    assert (RES : let z := (if (r =? 0)%Z then S754_zero s else SpecFloat.binary_normalize 53 1024 (cond_Zopp s r) b s) in okd z /\ R z = (if s then -1 else 1) * (IZR r * b2 b)).
    { destruct (Z.eqb_spec r 0) as [->|NZ]; cbv zeta; [split; [split; reflexivity|rewrite zR; destruct s; ring]|]. assert (AK : (Z.abs (cond_Zopp s r) < 2 ^ 53)%Z) by (destruct s; cbn [cond_Zopp]; lia).
      assert (RK : IZR (cond_Zopp s r) * b2 b = (if s then -1 else 1) * (IZR r * b2 b)) by (destruct s; cbn [cond_Zopp]; [rewrite opp_IZR|]; ring).
      destruct (exact_norm (cond_Zopp s r) b s AK Bm) as (A & B). { rewrite RK, Rabs_mult. replace (Rabs (if s then -1 else 1)) with 1 by (destruct s; [rewrite Rabs_left by lra|rewrite Rabs_pos_eq by lra]; ring). rewrite Rmult_1_l, Rabs_pos_eq by exact R1.
        pose proof (fin_bound 53 1024 (S754_finite false n k) (proj1 Oy)) as FB. rewrite Rabs_pos_eq in FB by lra. apply (Rlt_trans _ _ _ LT FB). }
      rewrite RK in B. split; assumption. }
    cbv zeta in RES. destruct RES as (OZ & RZ). cbv zeta. set (z := if (r =? 0)%Z then _ else _) in *. clearbody z. split; [exact OZ|]. rewrite RZ, RX. split; [|split; [|split]].
    + rewrite Rabs_mult. replace (Rabs (if s then -1 else 1)) with 1 by (destruct s; [rewrite Rabs_left by lra|rewrite Rabs_pos_eq by lra]; ring). rewrite Rmult_1_l, Rabs_pos_eq by exact R1. exact LT.
    + destruct s; intros; lra.
    + destruct s; intros; lra.
    + exists (if s then - q else q)%Z. rewrite XQ. destruct s; [rewrite opp_IZR|]; ring.
Qed.

(** ** orbits *)
Section O.
Variables fsin fpow3 : sf -> sf.
Hypothesis SU : unit_lib fsin.
Hypothesis CU : cube_lib fpow3.
Lemma two_pi : bnd 2 4 (dmul (dofZ 2) M_PI). Proof. lbd. Qed.
Lemma period_bnd h : between 0 100000000 h -> bnd (-35) 29 (orbitPeriod fpow3 h).
Proof.
  intros (O & B). assert (NR : bnd 12 28 (dadd earth_radius h)) by (apply (bnd_add 12 27); [eapply bnd_weak; [exact earth_bnd|lia|lia]|exact O|change (b2 27) with 134217728; lra|lia|lia]).
  assert (T : bnd 9 10 (dofZ 1000)) by lbd. pose proof (proj1 (bnd_mul _ _ _ _ _ _ NR T ltac:(lia) ltac:(lia))) as A. set (a := dmul (dadd earth_radius h) (dofZ 1000)) in *.
  assert (CB : bnd 0 120 (fpow3 a)). { destruct (CU a) as (F & B2). { split; [apply A|]. destruct A as (_ & A). split; [|apply Rle_trans with (1 := proj2 A); apply bpow_le; lia]. apply Rle_trans with (2 := proj1 A). change 1 with (b2 0). apply bpow_le. lia. } split; [exact F|exact B2]. }
  assert (MU : bnd 48 49 (dofZ (3986 * 10 ^ 11))) by lbd. pose proof (proj1 (bnd_div _ _ _ _ _ _ CB MU ltac:(lia) ltac:(lia))) as Q. assert (SQ : bnd (-25) 36 (Qft_Model.sqrt_d (ddiv (fpow3 a) (dofZ (3986 * 10 ^ 11))))) by (apply bnd_sqrt; [eapply bnd_weak; [exact Q|lia|lia]|lia|lia]).
  pose proof (proj1 (bnd_mul _ _ _ _ _ _ two_pi SQ ltac:(lia) ltac:(lia))) as W. assert (H36 : bnd 11 12 (dofZ 3600)) by lbd. pose proof (proj1 (bnd_div _ _ _ _ _ _ W H36 ltac:(lia) ltac:(lia))) as F. eapply bnd_weak; [exact F|lia|lia].
Qed.
Lemma d15z : okd (dofZ 15) /\ R (dofZ 15) = 15. Proof. apply (ofZ_ex 15). lia. Qed.
Lemma d360 : okd (dofZ 360) /\ R (dofZ 360) = 360. Proof. apply (ofZ_ex 360). lia. Qed.
Lemma phase_ok2 h t : between 0 100000000 h -> between 0 1000000000000 t -> okd (dfmod (dmul (dmul (ddiv t (orbitPeriod fpow3 h)) (dofZ 2)) M_PI) (dmul (dofZ 2) M_PI)).
Proof.
  intros H (O & B). pose proof (period_bnd h H) as P. assert (T : nb 40 t) by (split; [exact O|change (b2 40) with 1099511627776; lra]). pose proof (proj1 (nb_div _ _ _ _ _ T P ltac:(lia))) as Q. assert (N2 : nb 2 (dofZ 2)) by lnb 2%Z.
  pose proof (proj1 (nb_mul _ _ _ _ Q N2 ltac:(lia))) as Q2. pose proof (proj1 (nb_mul _ _ _ _ Q2 (bnd_nb _ _ _ pi_bnd) ltac:(lia))) as Q3. apply fmod_ok; [apply Q3|apply two_pi|exact (bnd_pos _ _ _ two_pi)].
Qed.
Lemma lon_ok i h t : between (-1000000000000) 1000000000000 t -> let l := lon (generateOrbitPosition fsin fpow3 i h t) in okd l /\ (0 <= R t -> -180 <= R l < 180) /\ (R t <= 0 -> -540 <= R l <= -180).
Proof.
  intros (O & B). cbn [generateOrbitPosition lon]. destruct d15z as (O15 & R15). destruct d360 as (O36 & R36). destruct d180 as (O18 & R18).
  destruct (mul_d t (dofZ 15) O O15) as (Om & Rm); [rewrite R15; unfold mid; lra|]. rewrite R15 in Rm. destruct (fmod_ok (dmul t (dofZ 15)) (dofZ 360) Om O36) as (Or & Br & Bp & Bn & _); [lra|]. cbv zeta. set (r := dfmod (dmul t (dofZ 15)) (dofZ 360)) in *. clearbody r. rewrite R36 in Br. apply Rabs_def2 in Br.
  destruct (sub_d r (dofZ 180) Or O18) as (Os & Rs); [rewrite R18; unfold mid; lra|]. rewrite R18 in Rs. split; [exact Os|]. rewrite Rs.
  pose proof (rnd_0) as RZ. split.
  - intros PT. assert (P2 : 0 <= R r) by (apply Bp; rewrite Rm; apply rnd_pos; lra). split; [apply (Qft6_Proofs.rnd_int (-180) 180); [lia|lia|lra]|].
    destruct (Rle_or_lt 90 (R r)) as [L|L].
    + assert (G : rnd64 (R r - 180) = R r - 180); [|lra]. apply round_generic; [apply valid_rnd_N|]. apply (Flocq.Prop.Sterbenz.sterbenz radix2 (SpecFloat.fexp 53 1024)).
      * change (generic_format radix2 (SpecFloat.fexp 53 1024) (R r)). rewrite <- (lift_R 53 1024 r (proj1 Or)). apply generic_format_B2R.
      * rewrite <- R18. rewrite <- (lift_R 53 1024 (dofZ 180) (proj1 O18)). apply generic_format_B2R.
      * lra.
    + assert (rnd64 (R r - 180) <= -90) by (apply (Qft6_Proofs.rnd_int (-180) (-90)); [lia|lia|lra]). lra.
  - intros PT. assert (P2 : R r <= 0). { apply Bn. rewrite Rm, <- RZ. apply (rnd_le 53 1024). lra. } apply (Qft6_Proofs.rnd_int (-540) (-180)); [lia|lia|lra].
Qed.
Lemma lat_ok i h t : finite_double i -> between 0 100000000 h -> between 0 1000000000000 t -> let l := lat (generateOrbitPosition fsin fpow3 i h t) in okd l /\ Rabs (R l) <= Rabs (R i).
Proof.
  intros O H T. cbn [generateOrbitPosition lat]. pose proof (phase_ok2 h t H T) as P. set (ph := dfmod _ _) in *. clearbody ph. destruct (SU ph P) as (OS & BS). set (x := fsin ph) in *. clearbody x.
  assert (B : Rabs (R i * R x) <= Rabs (R i)). { rewrite Rabs_mult. assert (Rabs (R x) <= 1) by (apply Rabs_le; lra). pose proof (Rabs_pos (R i)). pose proof (Rabs_pos (R x)). nra. }
  assert (B2 : Rabs (rnd64 (R i * R x)) <= Rabs (R i)).
  { pose proof (rnd_id i O) as RI. apply Rabs_le. apply Rabs_le_inv in B. assert (RA : rnd64 (Rabs (R i)) = Rabs (R i)). { destruct (Rle_or_lt 0 (R i)); [rewrite Rabs_pos_eq by lra; exact RI|]. rewrite Rabs_left by lra. rewrite rnd_opp, RI. reflexivity. }
    split; [rewrite <- RA, <- rnd_opp|rewrite <- RA]; apply (rnd_le 53 1024); lra. }
  destruct (mul_R 53 1024 i x) as (Q & F & V); try apply O; try apply OS.
  { apply Rle_lt_trans with (1 := B2). apply (fin_bound 53 1024). apply O. }
  cbv zeta. fold (dmul i x) in *. split; [split; assumption|]. rewrite Q. exact B2.
Qed.
End O.
