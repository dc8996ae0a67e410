(** Validity for every input, and the bounded quantities. *)
From Coq Require Import List NArith ZArith Bool Arith Lia Reals Lra Psatz SpecFloat.
Import ListNotations.
From Flocq Require Import Core BinarySingleNaN.
From Verif Require Import Outcome Words Floats FloatsR HealthFloat Bits_Model RMA3_Proofs Tester3_Proofs Hw_Proofs Hw2_Proofs Qft_Model Qft_Spec Qft2_Proofs Qft4_Proofs Qft5_Proofs Qft6_Proofs Qft7_Proofs Qft8_Proofs Qft9_Proofs Qer_Spec Qer_Proofs Qer2_Proofs Qer3_Proofs Qin_Model.
Local Open Scope R_scope.

Lemma mul_V x y : V64 x = true -> V64 y = true -> V64 (dmul x y) = true.
Proof. intros A B. pose proof (mul_equiv 53 1024 (lift 53 1024 x A) (lift 53 1024 y B)) as Q. rewrite !lift_sf in Q. unfold dmul. rewrite Q. apply valid_binary_B2SF. Qed.
Lemma div_V x y : V64 x = true -> V64 y = true -> V64 (ddiv x y) = true.
Proof. intros A B. pose proof (div_equiv 53 1024 (lift 53 1024 x A) (lift 53 1024 y B)) as Q. rewrite !lift_sf in Q. unfold ddiv. rewrite Q. apply valid_binary_B2SF. Qed.
Lemma add_V x y : V64 x = true -> V64 y = true -> V64 (dadd x y) = true.
Proof. intros A B. pose proof (add_equiv 53 1024 (lift 53 1024 x A) (lift 53 1024 y B)) as Q. rewrite !lift_sf in Q. unfold dadd. rewrite Q. apply valid_binary_B2SF. Qed.
Lemma sqrt_V x : V64 x = true -> V64 (sqrt_d x) = true.
Proof. intros A. pose proof (sqrt_equiv 53 1024 _ _ (lift 53 1024 x A)) as Q. rewrite !lift_sf in Q. unfold sqrt_d. rewrite Q. apply valid_binary_B2SF. Qed.
Lemma max_V x y : V64 x = true -> V64 y = true -> V64 (fmax x y) = true.
Proof. intros A B. unfold fmax. destruct (flt x y); assumption. Qed.
Lemma nan_dec (x : sf) : {x = S754_nan} + {x <> S754_nan}.
Proof. destruct x; try (right; discriminate). left. reflexivity. Qed.
Lemma flt_nan x : flt x S754_nan = false /\ flt S754_nan x = false. Proof. destruct x as [[]|[]| |[]]; split; reflexivity. Qed.

Lemma flt_nn a x : flt a x = true -> a <> S754_nan /\ x <> S754_nan.
Proof. intros H. split; intros ->; [rewrite (proj2 (flt_nan x)) in H|rewrite (proj1 (flt_nan a)) in H]; discriminate H. Qed.

(** ** clamping to literals *)
Lemma clamp_cases lo hi x : fmin hi (fmax lo x) = hi \/ (fmin hi (fmax lo x) = lo /\ flt lo hi = true) \/ (fmin hi (fmax lo x) = x /\ flt lo x = true /\ flt x hi = true).
Proof. unfold fmin, fmax. destruct (flt lo x) eqn:A. - destruct (flt x hi) eqn:B; auto. - destruct (flt lo hi) eqn:B; auto. Qed.
Lemma clamp_in lo hi x : okd lo -> okd hi -> R lo <= R hi -> V64 x = true -> okd (fmin hi (fmax lo x)) /\ R lo <= R (fmin hi (fmax lo x)) <= R hi.
Proof.
  intros L H LH V. destruct (clamp_cases lo hi x) as [->|[[-> _]|[-> [A B]]]]; [split; [exact H|lra]|split; [exact L|lra]|].
  assert (N : x <> S754_nan) by (intros ->; rewrite (proj1 (flt_nan lo)) in A; discriminate). assert (D : dbl x) by (split; assumption).
  apply (ltE _ _ (okd_dbl _ L) D) in A. apply (ltE _ _ D (okd_dbl _ H)) in B. rewrite (E_fin _ (proj2 L)) in A. rewrite (E_fin _ (proj2 H)) in B.
  pose proof (E_bound _ L) as BL. pose proof (E_bound _ H) as BH. rewrite (E_fin _ (proj2 L)) in BL. rewrite (E_fin _ (proj2 H)) in BH.
  assert (F : fin x = true). { destruct x as [s|[]| |s m e]; try reflexivity; cbn [E] in *; try lra. congruence. }
  split; [split; assumption|]. rewrite (E_fin _ F) in *. lra.
Qed.
(** fmin c x for x NaN or not negative *)
Definition nn (x : sf) : Prop := x = S754_nan \/ nneg x.
Lemma min_nn c x : okd c -> 0 <= R c -> nn x -> okd (fmin c x) /\ 0 <= R (fmin c x) <= R c.
Proof.
  intros O P [->|[D N]]; unfold fmin; [rewrite (proj2 (flt_nan c)); split; [exact O|lra]|]. destruct (flt x c) eqn:A; [|split; [exact O|lra]].
  apply (ltE _ _ D (okd_dbl _ O)) in A. rewrite (E_fin _ (proj2 O)) in A. pose proof (E_bound _ O) as B. rewrite (E_fin _ (proj2 O)) in B.
  assert (F : fin x = true). { destruct D as [V NN]. destruct x as [s|[]| |s m e]; try reflexivity; cbn [E] in *; try lra. congruence. }
  split; [split; [apply D|exact F]|]. rewrite (E_fin _ F) in *. lra.
Qed.
Lemma min_mono c x y : okd c -> 0 <= R c -> nneg x -> nneg y -> E x <= E y -> R (fmin c x) <= R (fmin c y).
Proof.
  intros O P X Y L. destruct (min_nn c x O P (or_intror X)) as [OX BX]. destruct (min_nn c y O P (or_intror Y)) as [OY BY]. unfold fmin in *.
  destruct (flt x c) eqn:A, (flt y c) eqn:B; try lra.
  - rewrite (E_fin x (proj2 OX)), (E_fin y (proj2 OY)) in L. exact L.
  - apply (ltE _ _ (proj1 Y) (okd_dbl _ O)) in B. assert (A' : E x < E c) by lra. apply (ltE _ _ (proj1 X) (okd_dbl _ O)) in A'. congruence.
Qed.
(** fmax x c is NaN or at least c *)
Lemma max_low x c : V64 x = true -> okd c -> 0 <= R c -> fmax x c = S754_nan \/ (nneg (fmax x c) /\ R c <= E (fmax x c)).
Proof.
  intros V O P. destruct (nan_dec x) as [->|N]; [left; unfold fmax; rewrite (proj2 (flt_nan c)); reflexivity|]. right. assert (D : dbl x) by (split; assumption). unfold fmax. destruct (flt x c) eqn:A.
  - split; [apply nneg_okd; assumption|]. rewrite (E_fin _ (proj2 O)). lra.
  - assert (Q : R c <= E x). { apply Rnot_lt_le. intros Q. rewrite <- (E_fin c (proj2 O)) in Q. apply (ltE _ _ D (okd_dbl _ O)) in Q. congruence. } split; [|exact Q]. split; [exact D|lra].
Qed.
Lemma max_mono x y c : dbl x -> dbl y -> okd c -> 0 <= R c -> E x <= E y -> nneg (fmax x c) /\ nneg (fmax y c) /\ R c <= E (fmax x c) /\ E (fmax x c) <= E (fmax y c).
Proof.
  intros X Y O P L. assert (NX : fmax x c <> S754_nan). { unfold fmax. destruct (flt x c); [intros ->; destruct O; discriminate|apply X]. } assert (NY : fmax y c <> S754_nan). { unfold fmax. destruct (flt y c); [intros ->; destruct O; discriminate|apply Y]. }
  destruct (max_low x c (proj1 X) O P) as [Q|[N1 L1]]; [congruence|]. destruct (max_low y c (proj1 Y) O P) as [Q|[N2 L2]]; [congruence|]. split; [exact N1|]. split; [exact N2|]. split; [exact L1|].
  unfold fmax in *. destruct (flt x c) eqn:A, (flt y c) eqn:B; try lra.
  - rewrite (E_fin _ (proj2 O)) in *. exact L2.
  - apply (ltE _ _ Y (okd_dbl _ O)) in B. rewrite (E_fin _ (proj2 O)) in *. lra.
Qed.

(** ** literals *)
Lemma l5 : okd (dq 5 100) /\ 49 / 1000 <= R (dq 5 100) <= 51 / 1000.
Proof. assert (H : dq 5 100 = S754_finite false 7205759403792794 (-57)) by (vm_compute; reflexivity). rewrite H. split; [split; reflexivity|]. rewrite fin_R. cbn [cond_Zopp]. change (b2 (-57)) with (/ 144115188075855872). lra. Qed.
Lemma lm : okd (dq 1 1000) /\ 999 / 1000000 <= R (dq 1 1000) <= 1001 / 1000000.
Proof. assert (H : dq 1 1000 = S754_finite false 4611686018427388 (-62)) by (vm_compute; reflexivity). rewrite H. split; [split; reflexivity|]. rewrite fin_R. cbn [cond_Zopp]. change (b2 (-62)) with (/ 4611686018427387904). lra. Qed.

Lemma lt1 : okd (dq 1 10) /\ 99 / 1000 <= R (dq 1 10) <= 101 / 1000. Proof. destruct tenth_dec as [O T]. apply Rabs_le_inv in T. split; [exact O|lra]. Qed.

(** ** the Klein-Gordon correction *)
Lemma kg_range hb mass pot g s ts : V64 hb = true -> V64 mass = true -> V64 pot = true -> V64 g = true -> V64 s = true -> V64 ts = true ->
  okd (kg_correction hb mass pot g s ts) /\ R (dq 1 1000) <= R (kg_correction hb mass pot g s ts) <= R (dq 5 100).
Proof.
  intros A B C D F G. unfold kg_correction. cbv zeta. destruct l5 as [O5 B5]. destruct lm as [OM BM]. destruct lt1 as [OT BT]. apply clamp_in; [exact OM|exact O5|lra|].
  assert (K : forall x, V64 x = true -> V64 (fmin (dq 1 10) x) = true) by (intros x V; unfold fmin; destruct (flt x (dq 1 10)); [exact V|apply OT]).
  assert (M1 : V64 (fmax s (dq 1 1000)) = true) by (apply max_V; [exact F|apply OM]). assert (M2 : V64 (fmax mass (dq 1 (10 ^ 32)%positive)) = true) by (apply max_V; [exact B|vm_compute; reflexivity]).
  apply mul_V; [apply div_V; [apply mul_V; [apply K, div_V; [apply mul_V; exact A|]|exact G]|apply mul_V; exact M1]|apply add_V; [reflexivity|apply K, mul_V; assumption]].
  apply mul_V; [apply mul_V; [apply mul_V; [reflexivity|exact M2]|exact M1]|exact M1].
Qed.
(** with the parameters the crystal gives it is always the least one *)
Lemma nneg_inf_or x : nneg x -> x = S754_infinity false \/ (okd x /\ 0 <= R x /\ E x = R x).
Proof. intros N. destruct (nneg_cases x N) as [->|[O P]]; [left; reflexivity|right]. split; [exact O|]. split; [exact P|apply E_fin, O]. Qed.
Lemma nneg_mul2 x y : okd x -> okd y -> 0 <= R x -> 0 <= R y -> nneg (dmul x y) /\ E (dmul x y) = Rmin BB (rnd64 (R x * R y)).
Proof. intros X Y PX PY. destruct (mul_fin x y X Y PX PY) as [D Q]. split; [|exact Q]. split; [exact D|]. rewrite Q. apply Rmin_glb; [pose proof BB_pos; lra|apply rnd_pos; nra]. Qed.
Definition st (c : crystal) (spacing : sf) : sf :=
  let s := fmax spacing (dq 1 1000) in
  ddiv (dmul (fmin (dq 1 10) (ddiv (dmul hbar_ev hbar_ev) (dmul (dmul (dmul (dofZ 2) (fmax (proton_m c) (dq 1 (10 ^ 32)%positive))) s) s))) (dq 1 (10 ^ 18)%positive)) (dmul s s).
Lemma fin_inf x : okd x -> 0 <= R x -> exists z, ddiv x (S754_infinity false) = S754_zero z.
Proof. intros [V F] P. destruct x as [s|s| |s m e]; try discriminate F; [exists s; destruct s; reflexivity|]. destruct s; [|exists false; reflexivity]. exfalso. rewrite fin_R in P. cbn [cond_Zopp] in P. pose proof (bpow_gt_0 radix2 e). assert (IZR (Z.neg m) < 0) by (apply IZR_lt; lia). change (- Z.pos m)%Z with (Z.neg m) in P. nra. Qed.
Lemma zero_nneg z : nneg (S754_zero z). Proof. split; [split; [reflexivity|discriminate]|]. cbn [E]. change (R (S754_zero z)) with 0. lra. Qed.
Lemma st_small c spacing : V64 spacing = true -> st c spacing = S754_nan \/ (okd (st c spacing) /\ 0 <= R (st c spacing) <= / 1000000).
Proof.
  intros V. unfold st. cbv zeta. destruct lm as [OM BM]. destruct lt1 as [OT BT]. destruct (max_low spacing (dq 1 1000) V OM ltac:(lra)) as [->|[N L]].
  - left. assert (H : dmul S754_nan S754_nan = S754_nan) by reflexivity. rewrite H. match goal with |- ddiv ?a _ = _ => destruct a; reflexivity end.
  - destruct (nneg_inf_or _ N) as [->|(OS & PS & ES)]; [right; destruct c as [[] k b]; (match goal with |- okd ?x /\ _ => assert (Q : x = S754_zero false) by (vm_compute; reflexivity); rewrite Q end); (split; [split; reflexivity|change (R (S754_zero false)) with 0; lra])|]. right. set (s := fmax spacing (dq 1 1000)) in *. rewrite ES in L.
    assert (TM : bnd (-110) (-90) (dmul (dofZ 2) (fmax (proton_m c) (dq 1 (10 ^ 32)%positive)))) by (destruct c as [[] k b]; apply lit_bnd; vm_compute; reflexivity).
    set (tm := dmul (dofZ 2) _) in *. assert (HB : bnd (-110) (-90) (dmul hbar_ev hbar_ev)) by (apply lit_bnd; vm_compute; reflexivity). set (h2 := dmul hbar_ev hbar_ev) in *.
    assert (TS : bnd (-60) (-59) (dq 1 (10 ^ 18)%positive)) by (apply lit_bnd; vm_compute; reflexivity). set (ts := dq 1 (10 ^ 18)%positive) in *. clearbody ts tm h2.
    pose proof (bnd_pos _ _ _ TS) as PTS. destruct TS as [OTS [_ BTS]]. change (b2 (-59)) with (/ 576460752303423488) in BTS.
    assert (ND : nn (ddiv h2 (dmul (dmul tm s) s))).
    { right. pose proof (nneg_mul2 tm s (proj1 TM) OS ltac:(pose proof (bnd_pos _ _ _ TM); lra) PS) as [N1 E1]. pose proof (bnd_pos _ _ _ TM) as PT.
      assert (LB : b2 (-120) <= E (dmul tm s)). { rewrite E1. apply Rmin_glb; [pose proof BB_pos; assert (b2 (-120) <= b2 0) by (apply bpow_le; lia); change (b2 0) with 1 in *; lra|]. rewrite <- (rnd_bpow (-120)) by lia. apply (rnd_le 53 1024). replace (b2 (-120)) with (b2 (-110) * b2 (-10)) by (rewrite <- bpow_plus; reflexivity). destruct TM as [_ [TM _]]. pose proof (bpow_gt_0 radix2 (-110)). pose proof (bpow_gt_0 radix2 (-10)). apply Rmult_le_compat; try lra. change (b2 (-10)) with (/ 1024). lra. }
      destruct (nneg_inf_or _ N1) as [->|(O1 & P1 & Q1)].
      - assert (H : dmul (S754_infinity false) s = S754_infinity false). { destruct s as [z|z| |z m e]; try (destruct OS; discriminate). - exfalso. change (R (S754_zero z)) with 0 in L. lra. - destruct z; [|reflexivity]. exfalso. rewrite fin_R in PS, L. cbn [cond_Zopp] in L. pose proof (bpow_gt_0 radix2 e). assert (IZR (Z.neg m) < 0) by (apply IZR_lt; lia). change (- Z.pos m)%Z with (Z.neg m) in L. nra. }
        rewrite H. destruct (fin_inf h2 (proj1 HB)) as [z ->]; [pose proof (bnd_pos _ _ _ HB); lra|apply zero_nneg].
      - rewrite Q1 in LB. destruct (nneg_mul2 _ s O1 OS P1 PS) as [N2 E2].
        assert (LB2 : b2 (-130) <= E (dmul (dmul tm s) s)). { rewrite E2. apply Rmin_glb; [pose proof BB_pos; assert (b2 (-130) <= b2 0) by (apply bpow_le; lia); change (b2 0) with 1 in *; lra|]. rewrite <- (rnd_bpow (-130)) by lia. apply (rnd_le 53 1024). replace (b2 (-130)) with (b2 (-120) * b2 (-10)) by (rewrite <- bpow_plus; reflexivity). pose proof (bpow_gt_0 radix2 (-120)). pose proof (bpow_gt_0 radix2 (-10)). apply Rmult_le_compat; try lra. change (b2 (-10)) with (/ 1024). lra. }
        destruct (nneg_inf_or _ N2) as [->|(O2 & P2 & Q2)]; [destruct (fin_inf h2 (proj1 HB)) as [z ->]; [pose proof (bnd_pos _ _ _ HB); lra|apply zero_nneg]|]. rewrite Q2 in LB2. pose proof (bpow_gt_0 radix2 (-130)). pose proof (bnd_pos _ _ _ HB).
        destruct (divE h2 _ (proj1 HB) O2 ltac:(lra) ltac:(lra)) as (DD & ED & PD). split; [exact DD|]. rewrite ED. apply Rmin_glb; [pose proof BB_pos; lra|exact PD]. }
    destruct (min_nn (dq 1 10) _ OT ltac:(lra) ND) as [OD BD]. set (dd := fmin (dq 1 10) _) in *.
    clearbody dd. assert (DT : 0 <= R dd * R ts <= / 576460752303423488) by (split; [apply Rmult_le_pos; lra|apply Rle_trans with (1 * R ts); [apply Rmult_le_compat_r; lra|lra]]).
    destruct (mul_d dd ts OD OTS) as [OP EP]; [apply (mid_of 0 1); [lia|lia|lra]|]. assert (BP : 0 <= R (dmul dd ts) <= / 576460752303423488).
    { rewrite EP. split; [apply rnd_pos; lra|]. change (/ 576460752303423488) with (b2 (-59)) in *. rewrite <- (rnd_bpow (-59)) by lia. apply (rnd_le 53 1024). lra. }
    set (num := dmul dd ts) in *. clearbody num. destruct (nneg_mul2 s s OS OS PS PS) as [N3 E3].
    assert (LB3 : b2 (-20) <= E (dmul s s)). { rewrite E3. apply Rmin_glb; [pose proof BB_pos; assert (b2 (-20) <= b2 0) by (apply bpow_le; lia); change (b2 0) with 1 in *; lra|]. rewrite <- (rnd_bpow (-20)) by lia. apply (rnd_le 53 1024). change (b2 (-20)) with (/ 1048576). nra. }
    change (b2 (-20)) with (/ 1048576) in LB3.
    destruct (nneg_inf_or _ N3) as [->|(O3 & P3 & Q3)]; [destruct (fin_inf num OP ltac:(lra)) as [z ->]; split; [split; reflexivity|]; change (R (S754_zero z)) with 0; lra|]. rewrite Q3 in LB3.
    assert (QB : 0 <= R num / R (dmul s s) <= / 100000). { split; [apply Rmult_le_pos; [lra|apply Rlt_le, Rinv_0_lt_compat; lra]|]. apply Rle_trans with (R num * 1048576); [|lra]. unfold Rdiv. apply Rmult_le_compat_l; [lra|]. rewrite <- (Rinv_inv 1048576). apply Rinv_le; lra. }
    destruct (div_d num _ OP O3 ltac:(lra)) as [OQ EQ]; [apply (mid_of 0 1); [lia|lia|lra]|]. split; [exact OQ|]. rewrite EQ. split; [apply rnd_pos; lra|].
    assert (QB2 : R num / R (dmul s s) <= b2 (-20)). { change (b2 (-20)) with (/ 1048576). apply Rle_trans with (R num * 1048576); [unfold Rdiv; apply Rmult_le_compat_l; [lra|]; rewrite <- (Rinv_inv 1048576); apply Rinv_le; lra|lra]. }
    apply Rle_trans with (b2 (-20)); [|change (b2 (-20)) with (/ 1048576); lra]. rewrite <- (rnd_bpow (-20)) by lia. apply (rnd_le 53 1024). exact QB2.
Qed.
Lemma small_prod s g : okd s -> 0 <= R s <= / 1000000 -> g = S754_infinity true \/ (okd g /\ R g <= 2) -> flt (dq 1 1000) (dmul s g) = false.
Proof.
  intros OS BS G. destruct lm as [OM BM]. set (c := dq 1 1000) in *. destruct G as [->|[OG BG]].
  - assert (B : dmul s (S754_infinity true) = S754_nan \/ dmul s (S754_infinity true) = S754_infinity true).
    { destruct s as [z|z| |z m e]; try (destruct OS; discriminate); [left; destruct z; reflexivity|]. destruct z; [|right; reflexivity]. exfalso. destruct BS as [BS _]. rewrite fin_R in BS. cbn [cond_Zopp] in BS. pose proof (bpow_gt_0 radix2 e). assert (IZR (Z.neg m) < 0) by (apply IZR_lt; lia). change (- Z.pos m)%Z with (Z.neg m) in BS. nra. }
    destruct B as [->| ->]; [apply flt_nan|vm_compute; reflexivity].
  - destruct (flt c (dmul s g)) eqn:Q; [|reflexivity]. exfalso. clearbody c. destruct (mulE s g OS OG) as [DX EX]. apply (ltE _ _ (okd_dbl _ OM) DX) in Q. rewrite (E_fin _ (proj2 OM)), EX in Q.
    assert (U : rnd64 (R s * R g) <= b2 (-18)). { rewrite <- (rnd_bpow (-18)) by lia. apply (rnd_le 53 1024). change (b2 (-18)) with (/ 262144). destruct (Rle_or_lt 0 (R g)); nra. }
    change (b2 (-18)) with (/ 262144) in U. apply clampB_mono in U. assert (C0 : clampB (/ 262144) = / 262144) by (unfold clampB; pose proof BB_pos; rewrite Rmin_right, Rmax_right; lra). rewrite C0 in U. lra.
Qed.
Lemma one_plus_cap i : V64 i = true -> i <> S754_nan -> E i <= 1 -> dadd d1 i = S754_infinity true \/ (okd (dadd d1 i) /\ R (dadd d1 i) <= 2).
Proof.
  intros VI NI UI. assert (VA : V64 (dadd d1 i) = true) by (apply add_V; [reflexivity|exact VI]). destruct (fin i) eqn:FI.
  - right. assert (OI : okd i) by (split; assumption). rewrite (E_fin _ FI) in UI.
    pose proof (rnd_le 53 1024 (1 + R i) (b2 1)) as U. rewrite rnd_bpow in U by lia. change (b2 1) with 2 in U. specialize (U ltac:(lra)).
    assert (OV : Rabs (rnd64 (R d1 + R i)) < b2 1024).
    { rewrite (proj2 o_ok). pose proof (rnd_le 53 1024 (R i) (1 + R i) ltac:(lra)) as LL. rewrite (rnd_R 53 1024 _ (proj1 OI)) in LL. pose proof (fin_bound 53 1024 i (proj1 OI)) as FB. apply Rabs_def2 in FB. assert (2 < b2 1024) by (rewrite <- BB_eq; pose proof BB_pos; lra). apply Rabs_def1; lra. }
    destruct (add_R 53 1024 d1 i (proj1 (proj1 o_ok)) (proj1 OI) (proj2 (proj1 o_ok)) (proj2 OI) OV) as (EA & FA & _). fold (dadd d1 i) in *. split; [split; [exact VA|exact FA]|]. rewrite EA, (proj2 o_ok). exact U.
  - destruct i as [z|z| |z m e]; try discriminate FI; [|congruence]. destruct z; [left; reflexivity|exfalso; cbn [E] in UI; pose proof BB_pos; lra].
Qed.
Lemma min_cap_E c y : okd c -> V64 y = true -> V64 (fmin c y) = true /\ fmin c y <> S754_nan /\ E (fmin c y) <= R c.
Proof.
  intros O V. unfold fmin. destruct (flt y c) eqn:A.
  - pose proof (proj1 (flt_nn _ _ A)) as N. split; [exact V|]. split; [exact N|]. apply (ltE _ _ (conj V N) (okd_dbl _ O)) in A. rewrite (E_fin _ (proj2 O)) in A. lra.
  - split; [apply O|]. split; [exact (proj2 (okd_dbl _ O))|]. rewrite (E_fin _ (proj2 O)). lra.
Qed.
Lemma kg_least c g spacing : V64 g = true -> V64 spacing = true -> kg_correction hbar_ev (proton_m c) (dq 5 10) g spacing (dq 1 (10 ^ 18)%positive) = dq 1 1000.
Proof.
  intros VG VS. unfold kg_correction. cbv zeta. fold (st c spacing). destruct lt1 as [OT BT].
  assert (VH : V64 (dmul g (dq 5 10)) = true) by (apply mul_V; [exact VG|vm_compute; reflexivity]). destruct (min_cap_E (dq 1 10) _ OT VH) as (VI & NI & UI). set (i := fmin (dq 1 10) (dmul g (dq 5 10))) in *. clearbody i.
  assert (H : flt (dq 1 1000) (dmul (st c spacing) (dadd d1 i)) = false).
  { pose proof (one_plus_cap i VI NI ltac:(lra)) as G. set (y := dadd d1 i) in *. clearbody y. destruct (st_small c spacing VS) as [S|[OS BS]].
    - rewrite S. assert (Q : dmul S754_nan y = S754_nan) by (destruct y; reflexivity). rewrite Q. apply flt_nan.
    - set (s := st c spacing) in *. clearbody s. apply small_prod; assumption. }
  set (x := dmul (st c spacing) (dadd d1 i)) in *. clearbody x. unfold fmax. rewrite H. vm_compute. reflexivity.
Qed.
