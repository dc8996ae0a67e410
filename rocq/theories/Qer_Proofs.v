(** Tunnelling without a guard on the temperature; the dip of the bit flip probability; upset sizes. *)
From Coq Require Import List NArith ZArith Bool Arith Lia Reals Lra SpecFloat.
Import ListNotations.
From Flocq Require Import Core BinarySingleNaN.
From Verif Require Import Outcome Words Floats FloatsR HealthFloat Bits_Model RMA3_Proofs Tester3_Proofs Hw_Proofs Hw2_Proofs Qft_Model Qft_Spec Qft2_Proofs Qft4_Proofs Qft5_Proofs Qft6_Proofs Qft7_Proofs Qft8_Proofs Qft9_Proofs Qer_Spec.
Local Open Scope R_scope.

(** ** instances of the library *)
Lemma one_exp_ok : exp_lib one_exp.
Proof.
  assert (D1 : V64 d1 = true) by (vm_compute; reflexivity).
  split.
  - reflexivity.
  - intros x H. unfold one_exp. destruct x; try reflexivity; destruct (fle (dofZ 1000) _); try reflexivity; exact D1.
  - intros x H N. unfold one_exp. destruct x; try congruence; destruct (fle (dofZ 1000) _); vm_compute; reflexivity.
  - intros x H L. unfold one_exp. destruct x as [s|s| |s m e]; try (destruct s); try discriminate L; try (vm_compute; reflexivity).
  - intros x [V F] B. assert (Ox : okd x) by (split; assumption). destruct (ofZ_ex 1000 ltac:(lia)) as [O1 E1]. assert (L : fle (dofZ 1000) x = false).
    { destruct (fle (dofZ 1000) x) eqn:C; [|reflexivity]. apply (fle_d _ _ O1 Ox) in C. rewrite E1 in C. lra. }
    unfold one_exp. destruct x; try discriminate F; rewrite L, (proj2 o_ok); lra.
Qed.
Lemma one_exp_overflow : exp_overflow one_exp.
Proof. intros x D L. unfold one_exp. rewrite L. destruct x; try reflexivity. discriminate. Qed.
Lemma one_exp_mono : lib_mono one_exp.
Proof.
  intros x y Dx Dy L. assert (Nx : x <> S754_nan) by (intros ->; discriminate). assert (Ny : y <> S754_nan) by (intros ->; destruct x; discriminate).
  assert (Bx : dbl x) by (split; assumption). assert (By : dbl y) by (split; assumption). destruct (ofZ_ex 1000 ltac:(lia)) as [O1 E1']. pose proof (okd_dbl _ O1) as D1.
  assert (T : fle (dofZ 1000) x = true -> fle (dofZ 1000) y = true). { rewrite (leE _ _ D1 Bx), (leE _ _ D1 By). apply (leE _ _ Bx By) in L. lra. }
  assert (K1 : forall z, z <> S754_nan -> one_exp z = if fle (dofZ 1000) z then S754_infinity false else d1) by (intros z N; destruct z; congruence || reflexivity).
  rewrite (K1 x Nx), (K1 y Ny). destruct (fle (dofZ 1000) x); [rewrite (T eq_refl); reflexivity|]. destruct (fle (dofZ 1000) y); vm_compute; reflexivity.
Qed.
Lemma square_R x : okd x -> dbl (dmul x x) /\ E (dmul x x) = Rmin BB (rnd64 (R x * R x)) /\ 0 <= rnd64 (R x * R x).
Proof.
  intros O. destruct (mulE x x O O) as [D H]. split; [exact D|]. assert (P : 0 <= rnd64 (R x * R x)) by (apply rnd_pos; nra). split; [|exact P]. rewrite H. unfold clampB. apply Rmax_right. pose proof BB_pos. apply Rmin_case; lra.
Qed.
Lemma square_ok : pow2_lib square /\ pow2_grows square.
Proof.
  assert (SQ : forall x, dbl x -> nneg (square x) /\ (okd x -> E (square x) = Rmin BB (rnd64 (R x * R x))) /\ (fin x = false -> square x = S754_infinity false)).
  { intros x [V N]. destruct (fin x) eqn:F.
    - destruct (square_R x) as (D & H & P); [split; assumption|]. split; [split; [exact D|unfold square; rewrite H; pose proof BB_pos; apply Rmin_case; lra]|]. split; [intros _; exact H|discriminate].
    - assert (I : square x = S754_infinity false) by (destruct x as [s|s| |s m e]; try discriminate F; [destruct s; reflexivity|congruence]). rewrite I. split; [split; [split; [reflexivity|discriminate]|cbn [E]; pose proof BB_pos; lra]|]. split; [intros [_ C]; congruence|reflexivity]. }
  split; [split|].
  - intros x V. destruct x as [s|s| |s m e]; try reflexivity. apply (SQ (S754_finite s m e)). split; [exact V|discriminate].
  - intros x V N. destruct (SQ x (conj V N)) as [[D P] _]. apply (leE d0 _ (okd_dbl _ (proj1 z_ok)) D). rewrite E0. exact P.
  - intros x [V F] B. assert (O : okd x) by (split; assumption). destruct (mul_d x x O O) as [Om Em]; [apply (mid_of 0 1); [lia|lia|nra]|]. fold (square x) in *. split; [exact Om|]. rewrite Em.
    pose proof (rnd64_abs (R x * R x) ltac:(nra)). apply Rabs_le. lra.
  - intros x y Vx Vy P L. assert (Nx : x <> S754_nan) by (intros ->; discriminate). assert (Ny : y <> S754_nan) by (intros ->; destruct x; discriminate). assert (Dx : dbl x) by (split; assumption). assert (Dy : dbl y) by (split; assumption).
    destruct (SQ x Dx) as ([Dsx _] & Fx & Ix). destruct (SQ y Dy) as ([Dsy _] & Fy & Iy). apply (leE _ _ Dsx Dsy). apply (leE _ _ Dx Dy) in L. apply (leE _ _ (okd_dbl _ (proj1 z_ok)) Dx) in P. rewrite E0 in P.
    assert (Ox : fin y = true -> fin x = true). { intros Q. pose proof (E_bound y (conj Vy Q)). destruct x as [|[]| |]; try reflexivity; cbn [E] in L, P; try lra. congruence. }
    destruct (fin y) eqn:Q.
    + specialize (Ox eq_refl). rewrite (Fx (conj Vx Ox)), (Fy (conj Vy Q)). rewrite (E_fin x Ox), (E_fin y Q) in L. rewrite (E_fin x Ox) in P. apply Rle_min_compat_l. apply (rnd_le 53 1024). apply Rmult_le_compat; lra.
    + rewrite (Iy eq_refl). destruct (fin x) eqn:Q2; [rewrite (Fx (conj Vx Q2)); apply Rmin_l|rewrite (Ix eq_refl); lra].
Qed.

Lemma moderate_bnd x : moderate x -> bnd (-20) 20 x. Proof. apply mod_bnd. Qed.
Lemma positive_bnd x : positive_double x -> bnd (-300) 300 x. Proof. intros [O B]. split; [exact O|exact B]. Qed.
Lemma kelvin_warm t : kelvin t -> warm t. Proof. intros [->|H]; [left; reflexivity|right; apply mod_bnd; exact H]. Qed.

Section X.
Variables fexp fpow2 : sf -> sf.
Hypothesis X : exp_lib fexp.
Hypothesis P2 : pow2_lib fpow2.

(** ** below absolute zero *)
Lemma fin_inf_nan p : inr 0 1 p -> dsub (dadd p (S754_infinity false)) (dmul p (S754_infinity false)) = S754_nan.
Proof. intros [[V F] B]. destruct p as [s|s| |s m e]; try discriminate F; try reflexivity. destruct s; [|reflexivity]. exfalso. rewrite fin_R in B. cbn [cond_Zopp] in B. pose proof (bpow_gt_0 radix2 e). assert (IZR (- Z.pos m) < 0) by (apply IZR_lt; lia). nra. Qed.
Lemma tunnel_cold : exp_overflow fexp -> tunneling fexp (dq 112 100) proton_mass hbar_ev (dofZ (-1)) = S754_nan.
Proof.
  intros OV. unfold tunneling. cbv zeta.
  assert (G : fle (dq 112 100) d0 || fle proton_mass d0 || fle hbar_ev d0 = false) by (vm_compute; reflexivity). rewrite G.
  assert (B1 : bnd (-300) 300 (dq 112 100)) by (apply lit_bnd; vm_compute; reflexivity). assert (B2 : bnd (-300) 300 proton_mass) by (apply lit_bnd; vm_compute; reflexivity). assert (B3 : bnd (-300) 300 hbar_ev) by (apply lit_bnd; vm_compute; reflexivity).
  pose proof (neg_exp fexp X _ (wkb_neg _ _ _ B1 B2 B3)) as PT. set (p := fexp (ddiv (dmul (dmul (dofZ (-2)) _) _) _)) in *.
  assert (H : fexp (ddiv (SFopp (dq 112 100)) (dmul kB (dofZ (-1)))) = S754_infinity false) by (apply OV; vm_compute; reflexivity). rewrite H, (fin_inf_nan p PT). apply clamp_nan.
Qed.
Lemma combine_low p q : inr 0 1 p -> inr 0 1 q -> R q - / 1000000 <= R (dclamp (dsub (dadd p q) (dmul p q)) d0 d1).
Proof.
  intros [Op Bp] [Oq Bq].
  destruct (add_d p q Op Oq) as [Os Es]; [apply (mid_of 0 2); lia || lra|]. destruct (mul_d p q Op Oq) as [Om Em]; [apply (mid_of 0 1); [lia|lia|nra]|].
  pose proof (rnd64_abs (R p + R q) ltac:(lra)) as A1. pose proof (rnd64_abs (R p * R q) ltac:(nra)) as A2. rewrite <- Es in A1. rewrite <- Em in A2.
  assert (PQ : R p * R q <= R p) by nra. assert (PQ2 : 0 <= R p * R q) by nra. destruct (sub_d (dadd p q) (dmul p q) Os Om) as [Ot Et]; [apply (mid_of (-1) 3); lia || lra|].
  set (x := dsub (dadd p q) (dmul p q)) in *. unfold dclamp. destruct (flt x d0) eqn:L1; [apply (flt_d x d0 Ot (proj1 z_ok)) in L1|destruct (flt d1 x) eqn:L2; [rewrite (proj2 o_ok); lra|]].
  - rewrite (proj2 z_ok) in L1 |- *. destruct (Rle_or_lt 0 (R (dadd p q) - R (dmul p q))) as [C|C].
    + rewrite Et in L1. pose proof (rnd_pos _ C). lra.
    + lra.
  - rewrite Et. assert (C : R q - / 10000000 <= R (dadd p q) - R (dmul p q)) by lra.
    destruct (Rle_or_lt 0 (R (dadd p q) - R (dmul p q))) as [C0|C0]; [pose proof (rnd64_abs (R (dadd p q) - R (dmul p q)) ltac:(lra)); lra|].
    assert (L0 : rnd64 (- (R (dadd p q) - R (dmul p q))) = - rnd64 (R (dadd p q) - R (dmul p q))) by apply round_NE_opp. pose proof (rnd64_abs (- (R (dadd p q) - R (dmul p q))) ltac:(lra)). lra.
Qed.

(** ** the dip at a tenth of the critical charge *)
Definition narrow_gap : material := mkM (dq 129 10000) (dq 26 100) (dq 543 1000) (dofZ 15) (dofZ 300).
Lemma narrow_phys : physical narrow_gap.
Proof.
  assert (M : forall x, litb (-20) 20 x = true -> moderate x). { intros x H. destruct (lit_bnd _ _ _ H) as [O B]. split; [exact O|]. change (b2 (-20)) with (/ 1048576) in B. change (b2 20) with 1048576 in B. exact B. }
  split; try (apply M; vm_compute; reflexivity). right. apply M. vm_compute. reflexivity.
Qed.
Lemma narrow_tunnel : inr 0 1 (er_tunnel fexp (bandgap narrow_gap) (dofZ 300)) /\ 49 / 100 <= R (er_tunnel fexp (bandgap narrow_gap) (dofZ 300)).
Proof.
  assert (B1 : bnd (-300) 300 (dq 129 10000)) by (apply lit_bnd; vm_compute; reflexivity). assert (B2 : bnd (-300) 300 proton_mass) by (apply lit_bnd; vm_compute; reflexivity). assert (B3 : bnd (-300) 300 hbar_ev) by (apply lit_bnd; vm_compute; reflexivity).
  assert (T : bnd (-300) 300 (dofZ 300)) by (apply lit_bnd; vm_compute; reflexivity).
  change (bandgap narrow_gap) with (dq 129 10000). split; [apply (er_range fexp X); [exact B1|right; exact T]|].
  unfold er_tunnel, tunneling. cbv zeta. assert (G : fle (dq 129 10000) d0 || fle proton_mass d0 || fle hbar_ev d0 = false) by (vm_compute; reflexivity). rewrite G.
  pose proof (neg_exp fexp X _ (wkb_neg _ _ _ B1 B2 B3)) as PT. pose proof (neg_exp fexp X _ (thermal_neg _ _ B1 (or_intror T))) as PH. pose proof (combine_low _ _ PT PH) as CL.
  assert (LX : 1 + R (ddiv (SFopp (dq 129 10000)) (dmul kB (dofZ 300))) - / 1000000 <= R (fexp (ddiv (SFopp (dq 129 10000)) (dmul kB (dofZ 300))))).
  { apply (exp_lin fexp X); [split; vm_compute; reflexivity|]. assert (V : ddiv (SFopp (dq 129 10000)) (dmul kB (dofZ 300)) = S754_finite true 8989081800092104 (-54)) by (vm_compute; reflexivity). rewrite V, fin_R. cbn [cond_Zopp]. rewrite opp_IZR. change (b2 (-54)) with (/ IZR 18014398509481984). lra. }
  assert (V : ddiv (SFopp (dq 129 10000)) (dmul kB (dofZ 300)) = S754_finite true 8989081800092104 (-54)) by (vm_compute; reflexivity).
  assert (VR : R (ddiv (SFopp (dq 129 10000)) (dmul kB (dofZ 300))) = - 8989081800092104 / 18014398509481984). { rewrite V, fin_R. cbn [cond_Zopp]. rewrite opp_IZR. change (b2 (-54)) with (/ IZR 18014398509481984). lra. }
  rewrite VR in LX. apply Rle_trans with (2 := CL). lra.
Qed.
Ltac litnear := match goal with |- near 1 ?x _ => let y := eval vm_compute in x in let H := fresh in assert (H : x = y) by (vm_compute; reflexivity); apply lit_near; [apply lit_bnd; vm_compute; reflexivity|]; rewrite H, fin_R; cbn [cond_Zopp]; unfold u12; match goal with |- context [bpow radix2 ?e] => let v := eval vm_compute in (2 ^ (- e))%Z in change (bpow radix2 e) with (/ IZR v) end; apply Rabs_le; lra end.
Lemma n99 : near 1 (dq 99 1000) (99 / 1000) /\ bnd (-4) (-3) (dq 99 1000). Proof. split; [litnear|apply lit_bnd; vm_compute; reflexivity]. Qed.
Lemma n101 : near 1 (dq 101 1000) (101 / 1000) /\ bnd (-4) (-3) (dq 101 1000). Proof. split; [litnear|apply lit_bnd; vm_compute; reflexivity]. Qed.
Lemma ratio_near c x v : bnd (-25) 35 c -> near 1 x v -> bnd (-4) (-3) x -> bnd (-29) 32 (dmul c x) /\ near 2 (dmul c x) (R c * v) /\ bnd (-64) 57 (ddiv (dmul c x) c) /\ v * (1 - 4 * u12) <= R (ddiv (dmul c x) c) <= v * (1 + 4 * u12).
Proof.
  intros C N B. pose proof (near_self _ _ _ C) as NC. destruct (near_mul 0 1 _ _ _ _ _ _ _ _ C B NC N) as [B1 N1]; try lia. destruct (near_div 2 0 _ _ _ _ _ _ _ _ B1 C N1 NC) as [B2 N2]; try lia.
  split; [exact B1|]. split; [exact N1|]. split; [exact B2|]. destruct N2 as [_ N2]. pose proof (bnd_pos _ _ _ C). replace (R c * v / R c) with v in N2 by (field; lra). exact N2.
Qed.
Lemma clamp_inr x : inr 0 1 x -> dclamp x d0 d1 = x.
Proof. intros [O B]. destruct (clamp_gen x d0 d1 (okd_dbl _ O) (proj1 z_ok) (proj1 o_ok)) as (_ & _ & H); [rewrite (proj2 z_ok), (proj2 o_ok); lra|]. apply H; [exact O|rewrite (proj2 z_ok), (proj2 o_ok); exact B]. Qed.
Lemma clamp_ge x v : okd x -> 0 <= v <= 1 -> v <= R x -> v <= R (dclamp x d0 d1).
Proof.
  intros O B L. unfold dclamp. destruct (flt x d0) eqn:A; [apply (flt_d x d0 O (proj1 z_ok)) in A; rewrite (proj2 z_ok) in *; lra|]. destruct (flt d1 x); [rewrite (proj2 o_ok); lra|exact L].
Qed.
Lemma bnd_nneg a b x : bnd a b x -> nneg x.
Proof. intros B. pose proof (bnd_pos _ _ _ B). destruct B as [O _]. split; [apply okd_dbl; exact O|]. rewrite (E_fin _ (proj2 O)). lra. Qed.
Lemma flip_dip : let m := narrow_gap in exists c1 c2, moderate c1 /\ moderate c2 /\ flt c1 c2 = true /\
  flt (bitFlipProbability fexp fpow2 m c2 SRAM_6T (dofZ 300)) (bitFlipProbability fexp fpow2 m c1 SRAM_6T (dofZ 300)) = true.
Proof.
  cbv zeta. assert (W : warm (dofZ 300)) by (right; apply lit_bnd; vm_compute; reflexivity). assert (G : bnd (-20) 20 (bandgap narrow_gap)) by (apply lit_bnd; vm_compute; reflexivity).
  assert (BS : dmul (crit_fc narrow_gap) (device_factor SRAM_6T) = dofZ 15) by (vm_compute; reflexivity). assert (B15 : bnd (-24) 24 (dofZ 15)) by (apply lit_bnd; vm_compute; reflexivity).
  destruct (crit_range fexp X narrow_gap _ _ G B15 W) as [CB CR]. assert (R15 : R (dofZ 15) = 15) by (apply (ofZ_ex 15); lia). assert (R300 : R (dofZ 300) = 300) by (apply (ofZ_ex 300); lia). rewrite R15, R300 in CR.
  unfold bitFlipProbability. rewrite BS. cbv zeta. set (C := criticalCharge fexp narrow_gap (dofZ 15) (dofZ 300)) in *.
  destruct n99 as [N1 B1]. destruct n101 as [N2 B2]. destruct (ratio_near C _ _ CB N1 B1) as (BC1 & NC1 & BR1 & R1). destruct (ratio_near C _ _ CB N2 B2) as (BC2 & NC2 & BR2 & R2).
  exists (dmul C (dq 99 1000)), (dmul C (dq 101 1000)). destruct NC1 as [_ NC1]. destruct NC2 as [_ NC2]. unfold u12 in R1, R2, NC1, NC2.
  assert (P0 : forall x a b, bnd a b x -> fle x d0 = false). { intros x a b B. destruct (fle x d0) eqn:Q; [|reflexivity]. apply (fle_d x d0 (proj1 B) (proj1 z_ok)) in Q. pose proof (bnd_pos _ _ _ B). rewrite (proj2 z_ok) in Q. lra. }
  split; [split; [exact (proj1 BC1)|lra]|]. split; [split; [exact (proj1 BC2)|lra]|]. split; [apply (flt_d _ _ (proj1 BC1) (proj1 BC2)); lra|].
  rewrite (P0 _ _ _ BC1), (P0 _ _ _ BC2), (P0 _ _ _ CB). cbn [orb].
  destruct tenth_dec as [OT T]. apply Rabs_le_inv in T.
  assert (L1 : flt (ddiv (dmul C (dq 99 1000)) C) (dq 1 10) = true) by (apply (flt_d _ _ (proj1 BR1) OT); lra).
  assert (L2 : flt (ddiv (dmul C (dq 101 1000)) C) (dq 1 10) = false). { destruct (flt (ddiv (dmul C (dq 101 1000)) C) (dq 1 10)) eqn:Q; [|reflexivity]. apply (flt_d _ _ (proj1 BR2) OT) in Q. lra. }
  rewrite L1, L2. fold (weibull fexp fpow2 (ddiv (dmul C (dq 99 1000)) C)) (weibull fexp fpow2 (ddiv (dmul C (dq 101 1000)) C)).
  pose proof (bnd_nneg _ _ _ BR1) as Q1. pose proof (bnd_nneg _ _ _ BR2) as Q2. destruct (weibull_range fexp fpow2 X P2 _ Q1) as [W1 _]. destruct (weibull_range fexp fpow2 X P2 _ Q2) as [W2 E2].
  rewrite (clamp_inr _ W2). destruct narrow_tunnel as [TR TL]. destruct (tenth_mul _ TR) as [TM ML]. set (tm := dmul (er_tunnel fexp (bandgap narrow_gap) (dofZ 300)) (dq 1 10)) in *.
  destruct W1 as [OW1 BW1]. destruct TM as [OM BM]. set (w1 := weibull fexp fpow2 (ddiv (dmul C (dq 99 1000)) C)) in *. destruct (add_d w1 tm OW1 OM) as [OA EA]; [apply (mid_of 0 2); lia || lra|].
  assert (LA : 48 / 1000 <= R (dclamp (dadd w1 tm) d0 d1)). { apply clamp_ge; [exact OA|lra|]. rewrite EA. pose proof (rnd64_abs (R w1 + R tm) ltac:(lra)). lra. }
  assert (UB : R (weibull fexp fpow2 (ddiv (dmul C (dq 101 1000)) C)) <= 11 / 1000).
  { rewrite E2. set (r2 := ddiv (dmul C (dq 101 1000)) C) in *. assert (D1 : R (ddiv r2 d1) = R r2 /\ okd (ddiv r2 d1)).
    { destruct (bnd_div _ _ _ _ _ _ BR2 one_bnd) as [BD ED]; try lia. split; [|exact (proj1 BD)]. rewrite ED, (proj2 o_ok). unfold Rdiv. rewrite Rinv_1, Rmult_1_r. apply (rnd_R 53 1024). apply BR2. }
    destruct D1 as [D1 OD]. destruct (pow2_acc fpow2 P2 _ OD) as [FP AP]; [rewrite D1; lra|]. rewrite D1 in AP. apply Rabs_le_inv in AP. set (s := fpow2 (ddiv r2 d1)) in *.
    assert (SQ : R r2 * R r2 <= 10202 / 1000000) by nra. assert (SQ0 : 0 <= R s). { pose proof (pow2_pos fpow2 P2 (ddiv r2 d1) (proj1 OD)) as H. specialize (H (proj2 (okd_dbl _ OD))). fold s in H. apply (fle_d d0 s (proj1 z_ok) FP) in H. rewrite (proj2 z_ok) in H. exact H. }
    pose proof (exp_lin fexp X (SFopp s) (opp_okd _ FP)) as XL. rewrite opp_R in XL. specialize (XL ltac:(lra)). destruct (neg_exp fexp X (SFopp s)) as [OX BX]. { split; [apply okd_dbl, opp_okd; exact FP|]. rewrite (E_fin _ (proj2 (opp_okd _ FP))), opp_R. lra. }
    pose proof (rnd64_abs (1 - R (fexp (SFopp s))) ltac:(lra)). lra. }
  apply (flt_d _ _ (proj1 W2)); [|lra]. destruct (clamp01 (dadd w1 tm) (okd_dbl _ OA)) as [O _]. exact O.
Qed.
(** at a tenth of the critical charge and above it grows *)
Lemma flip_mono m c1 c2 t temp : lib_mono fexp -> pow2_mono fpow2 -> bnd (-20) 20 (bandgap m) -> bnd (-20) 20 (crit_fc m) -> warm temp -> dbl c1 -> dbl c2 -> E c1 <= E c2 ->
  flt (ddiv c1 (criticalCharge fexp m (dmul (crit_fc m) (device_factor t)) temp)) (dq 1 10) = false \/ fle c1 d0 = true ->
  R (bitFlipProbability fexp fpow2 m c1 t temp) <= R (bitFlipProbability fexp fpow2 m c2 t temp).
Proof.
  intros XM PM G C W D1 D2 L H. destruct (flip_range fexp fpow2 X P2 m c2 t temp G C W D2) as [_ RB]. unfold bitFlipProbability in *. cbv zeta in *.
  assert (DF : bnd (-1) 4 (device_factor t)) by (destruct t; apply lit_bnd; vm_compute; reflexivity).
  destruct (bnd_mul _ _ _ _ _ _ C DF) as [BB1 _]; try lia. destruct (crit_range fexp X m _ temp G (bnd_weak _ _ (-24) 24 _ BB1 ltac:(lia) ltac:(lia)) W) as [CB _]. set (crit := criticalCharge _ _ _ _) in *.
  destruct (fle c1 d0) eqn:L1; cbn [orb] in *; [rewrite (proj2 z_ok); apply RB|]. destruct H as [H|H]; [|discriminate].
  assert (N : forall c, dbl c -> fle c d0 = false -> nneg c). { intros c D Q. split; [exact D|]. destruct (Rle_or_lt (E c) 0) as [Q2|Q2]; [|lra]. rewrite <- E0 in Q2. apply (leE c d0 D (okd_dbl _ (proj1 z_ok))) in Q2. congruence. }
  assert (L2 : fle c2 d0 = false). { destruct (fle c2 d0) eqn:Q; [|reflexivity]. apply (leE c2 d0 D2 (okd_dbl _ (proj1 z_ok))) in Q. assert (Q3 : E c1 <= E d0) by lra. apply (leE c1 d0 D1 (okd_dbl _ (proj1 z_ok))) in Q3. congruence. }
  rewrite L2 in *. cbn [orb] in *. destruct (fle crit d0); [lra|]. pose proof (N c1 D1 L1) as N1. pose proof (N c2 D2 L2) as N2.
  pose proof (nneg_div c1 crit _ _ N1 CB) as Q1. pose proof (nneg_div c2 crit _ _ N2 CB) as Q2. pose proof (nneg_div_mono c1 c2 crit _ _ N1 N2 CB L) as LQ.
  assert (H2 : flt (ddiv c2 crit) (dq 1 10) = false). { destruct (flt (ddiv c2 crit) (dq 1 10)) eqn:Q; [|reflexivity]. pose proof (okd_dbl _ (proj1 tenth_dec)) as DT. apply (ltE _ _ (proj1 Q2) DT) in Q. assert (Q3 : E (ddiv c1 crit) < E (dq 1 10)) by lra. apply (ltE _ _ (proj1 Q1) DT) in Q3. congruence. }
  rewrite H, H2. fold (weibull fexp fpow2 (ddiv c1 crit)) (weibull fexp fpow2 (ddiv c2 crit)). destruct (weibull_range fexp fpow2 X P2 _ Q1) as [W1 _]. destruct (weibull_range fexp fpow2 X P2 _ Q2) as [W2 _].
  rewrite (clamp_inr _ W1), (clamp_inr _ W2). apply (weibull_mono fexp fpow2 X P2); assumption.
Qed.
End X.

(** ** upset sizes *)
Lemma arg_mono m c1 c2 t : bnd (-20) 20 (crit_fc m) -> okd c1 -> okd c2 -> 2 * R (crit_fc m) <= R c1 -> R c1 <= R c2 -> R c2 <= 1073741824 * R (crit_fc m) -> R (mbu_arg m c1 t) <= R (mbu_arg m c2 t).
Proof.
  intros C O1 O2 A B U. destruct (arg_ok m c1 t C O1) as (_ & _ & E1 & F1 & G1); [lra|]. destruct (arg_ok m c2 t C O2) as (_ & _ & E2 & F2 & G2); [lra|]. rewrite E1, E2. apply (rnd_le 53 1024). destruct (clust_bnd t) as [_ K]. apply Rmult_le_compat_r; [lra|].
  rewrite F1, F2. apply (rnd_le 53 1024). pose proof (bnd_pos _ _ _ C). apply Rmult_le_compat_r; [|lra]. apply Rlt_le, Rinv_0_lt_compat. lra.
Qed.
Lemma arg_ion m c t : bnd (-20) 20 (crit_fc m) -> okd c -> 2 * R (crit_fc m) <= R c <= 1073741824 * R (crit_fc m) -> R (mbu_arg m c t) <= R (mbu_arg m c HeavyIon).
Proof.
  intros C O B. destruct (arg_ok m c t C O B) as (_ & _ & E1 & _ & G1). destruct (arg_ok m c HeavyIon C O B) as (_ & _ & E2 & _). rewrite E1, E2. apply (rnd_le 53 1024). destruct (clust_bnd t) as [_ K]. assert (K3 : R (clustering HeavyIon) = 3) by (apply (ofZ_ex 3); lia). rewrite K3. apply Rmult_le_compat_l; lra.
Qed.
