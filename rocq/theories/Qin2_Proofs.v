(** Zero-point energy, tunnelling, the enhancement factor and corrected counts. *)
From Coq Require Import List NArith ZArith Bool Arith Lia Reals Lra Psatz SpecFloat.
Import ListNotations.
From Flocq Require Import Core BinarySingleNaN.
From Verif Require Import Outcome Words Floats FloatsR HealthFloat Bits_Model RMA3_Proofs Tester3_Proofs Hw_Proofs Hw2_Proofs Qft_Model Qft_Spec Qft2_Proofs Qft4_Proofs Qft5_Proofs Qft6_Proofs Qft7_Proofs Qft8_Proofs Qft9_Proofs Qer_Spec Qer_Proofs Qer2_Proofs Qer3_Proofs Qin_Model Qin_Proofs.
Local Open Scope R_scope.

(** 1 / x for x at least one, perhaps infinite *)
Lemma recip x : nneg x -> 1 <= E x -> inr 0 1 (ddiv d1 x).
Proof.
  intros N L. destruct (nneg_inf_or x N) as [->|(O & P & Q)]; [assert (H : ddiv d1 (S754_infinity false) = d0) by (vm_compute; reflexivity); rewrite H; split; [apply z_ok|rewrite (proj2 z_ok); lra]|]. rewrite Q in L.
  assert (B : 0 <= 1 / R x <= 1). { unfold Rdiv. rewrite Rmult_1_l. split; [apply Rlt_le, Rinv_0_lt_compat; lra|]. rewrite <- Rinv_1. apply Rinv_le; lra. }
  destruct (div_d d1 x (proj1 o_ok) O ltac:(lra)) as [OD ED]; [rewrite (proj2 o_ok); apply (mid_of 0 1); [lia|lia|lra]|]. rewrite (proj2 o_ok) in ED. split; [exact OD|]. rewrite ED. apply (rnd_int 0 1); lia || lra.
Qed.
Lemma recip_anti x y : nneg x -> nneg y -> 1 <= E x -> E x <= E y -> R (ddiv d1 y) <= R (ddiv d1 x).
Proof.
  intros X Y L M. destruct (nneg_inf_or y Y) as [->|(OY & PY & QY)]; [assert (H : ddiv d1 (S754_infinity false) = d0) by (vm_compute; reflexivity); rewrite H, (proj2 z_ok); apply (recip x X L)|].
  pose proof (E_bound y OY). destruct (nneg_inf_or x X) as [->|(OX & PX & QX)]; [exfalso; cbn [E] in M; lra|]. rewrite QX, QY in *.
  assert (B : forall z, okd z -> 1 <= R z -> R (ddiv d1 z) = rnd64 (1 / R z)).
  { intros z OZ LZ. assert (BZ : 0 <= 1 / R z <= 1). { unfold Rdiv. rewrite Rmult_1_l. split; [apply Rlt_le, Rinv_0_lt_compat; lra|]. rewrite <- Rinv_1. apply Rinv_le; lra. } destruct (div_d d1 z (proj1 o_ok) OZ ltac:(lra)) as [_ ED]; [rewrite (proj2 o_ok); apply (mid_of 0 1); [lia|lia|lra]|]. rewrite ED, (proj2 o_ok). reflexivity. }
  rewrite (B x OX ltac:(lra)), (B y OY ltac:(lra)). apply (rnd_le 53 1024). unfold Rdiv. rewrite !Rmult_1_l. apply Rinv_le; lra.
Qed.
Lemma N1 : nneg d1. Proof. apply nneg_okd; [apply o_ok|rewrite (proj2 o_ok); lra]. Qed.
Lemma one_more x : nneg x -> nneg (dadd d1 x) /\ 1 <= E (dadd d1 x).
Proof. intros N. destruct (nneg_add d1 x N1 N) as [A _]. split; [exact A|]. rewrite <- E1 at 1. apply add_ge; [exact N1|exact N]. Qed.

(** ** zero-point energy *)
Definition om_of (mass lattice : sf) : sf :=
  fmin (dofZ (10 ^ 15)) (fmax (dofZ (10 ^ 12)) (sqrt_d (ddiv (ddiv (dofZ 5) (dmul (fmax lattice (dq 1 10)) (fmax lattice (dq 1 10)))) (fmax mass (dq 1 (10 ^ 32)%positive))))).
Definition supp_of (hb om temperature : sf) : sf := ddiv d1 (dadd d1 (ddiv (dmul kB (fmax temperature d1)) (dmul hb om))).
Lemma zpe_eq hb mass lattice t : zpe hb mass lattice t = fmin (dq 5 100) (dmul (dmul (dmul (dq 5 10) hb) (om_of mass lattice)) (supp_of hb (om_of mass lattice) t)).
Proof. reflexivity. Qed.
Lemma om_bnd mass lattice : V64 mass = true -> V64 lattice = true -> bnd 39 50 (om_of mass lattice).
Proof.
  intros M L. unfold om_of. assert (A : bnd 39 40 (dofZ (10 ^ 12))) by (apply lit_bnd; vm_compute; reflexivity). assert (B : bnd 49 50 (dofZ (10 ^ 15))) by (apply lit_bnd; vm_compute; reflexivity).
  assert (V : V64 (sqrt_d (ddiv (ddiv (dofZ 5) (dmul (fmax lattice (dq 1 10)) (fmax lattice (dq 1 10)))) (fmax mass (dq 1 (10 ^ 32)%positive)))) = true).
  { assert (VL : V64 (fmax lattice (dq 1 10)) = true) by (apply max_V; [exact L|vm_compute; reflexivity]). apply sqrt_V, div_V; [apply div_V; [vm_compute; reflexivity|apply mul_V; exact VL]|apply max_V; [exact M|vm_compute; reflexivity]]. }
  set (w := sqrt_d _) in *. clearbody w. set (lo := dofZ (10 ^ 12)) in *. set (hi := dofZ (10 ^ 15)) in *. clearbody lo hi. destruct A as [OA [A1 A2]]. destruct B as [OB [B1 B2]]. assert (b2 40 <= b2 49) by (apply bpow_le; lia).
  destruct (clamp_in lo hi w OA OB ltac:(lra) V) as [O Q]. split; [exact O|lra].
Qed.
Lemma half10 : bnd (-1) (-1) (dq 5 10). Proof. split; [apply (lit_bnd (-2) 2); vm_compute; reflexivity|]. assert (H : dq 5 10 = S754_finite false 4503599627370496 (-53)) by (vm_compute; reflexivity). rewrite H, fin_R. cbn [cond_Zopp]. change (b2 (-53)) with (/ 9007199254740992). change (b2 (-1)) with (/ 2). lra. Qed.
Lemma supp_range hb om t : bnd (-100) 100 hb -> bnd 39 50 om -> V64 t = true -> supp_of hb om t = S754_nan \/ inr 0 1 (supp_of hb om t).
Proof.
  intros H O V. unfold supp_of. destruct (max_low t d1 V (proj1 o_ok) ltac:(rewrite (proj2 o_ok); lra)) as [->|[N _]].
  - left. assert (Q : dmul kB S754_nan = S754_nan) by (vm_compute; reflexivity). rewrite Q. set (y := dmul hb om). clearbody y. assert (Q2 : ddiv S754_nan y = S754_nan) by (destruct y; reflexivity). rewrite Q2. vm_compute. reflexivity.
  - right. destruct kB_near as [KB _]. destruct (bnd_mul _ _ _ _ _ _ H O) as [B1 _]; try lia. pose proof (proj1 (nneg_mul kB (fmax t d1) _ _ KB N)) as N2. pose proof (nneg_div _ _ _ _ N2 B1) as N3. destruct (one_more _ N3) as [N4 L4]. apply recip; assumption.
Qed.
Lemma zpe_range hb mass lattice t : bnd (-100) 100 hb -> V64 mass = true -> V64 lattice = true -> V64 t = true -> okd (zpe hb mass lattice t) /\ 0 <= R (zpe hb mass lattice t) <= R (dq 5 100).
Proof.
  intros H M L T. rewrite zpe_eq. destruct l5 as [O5 B5]. apply min_nn; [exact O5|lra|]. pose proof (om_bnd mass lattice M L) as OB. set (om := om_of mass lattice) in *. clearbody om.
  destruct (bnd_mul _ _ _ _ _ _ half10 H) as [A1 _]; try lia. destruct (bnd_mul _ _ _ _ _ _ A1 OB) as [A2 _]; try lia. set (z := dmul (dmul (dq 5 10) hb) om) in *. clearbody z.
  pose proof (supp_range hb om t H OB T) as SR. set (s := supp_of hb om t) in *. clearbody s. destruct SR as [->|[OS BS]]; [left; destruct z; reflexivity|right]. assert (NS : nneg s) by (apply nneg_okd; [exact OS|lra]). exact (proj1 (nneg_mul z s _ _ A2 NS)).
Qed.
Lemma zpe_anti hb mass lattice t t' : bnd (-100) 100 hb -> V64 mass = true -> V64 lattice = true -> dbl t -> dbl t' -> E t <= E t' -> R (zpe hb mass lattice t') <= R (zpe hb mass lattice t).
Proof.
  intros H M L T T' LE. rewrite !zpe_eq. destruct l5 as [O5 B5]. pose proof (om_bnd mass lattice M L) as OB. set (om := om_of mass lattice) in *. clearbody om.
  destruct (bnd_mul _ _ _ _ _ _ half10 H) as [A1 _]; try lia. destruct (bnd_mul _ _ _ _ _ _ A1 OB) as [A2 _]; try lia. set (z := dmul (dmul (dq 5 10) hb) om) in *. clearbody z.
  destruct (max_mono t t' d1 T T' (proj1 o_ok) ltac:(rewrite (proj2 o_ok); lra) LE) as (X1 & X2 & _ & X4). destruct kB_near as [KB _]. destruct (bnd_mul _ _ _ _ _ _ H OB) as [B1 _]; try lia.
  pose proof (proj1 (nneg_mul kB _ _ _ KB X1)) as Y1. pose proof (proj1 (nneg_mul kB _ _ _ KB X2)) as Y2. pose proof (nneg_mul_mono kB kB _ _ _ _ _ _ KB KB X1 X2 (Rle_refl _) X4) as Y4.
  pose proof (nneg_div _ _ _ _ Y1 B1) as Z1. pose proof (nneg_div _ _ _ _ Y2 B1) as Z2. pose proof (nneg_div_mono _ _ _ _ _ Y1 Y2 B1 Y4) as Z4.
  destruct (one_more _ Z1) as [W1 L1]. destruct (one_more _ Z2) as [W2 L2]. pose proof (add_mono _ _ _ _ N1 Z1 N1 Z2 (Rle_refl _) Z4) as W4.
  destruct (recip _ W1 L1) as [O1 R1]. destruct (recip _ W2 L2) as [O2 R2]. pose proof (recip_anti _ _ W1 W2 L1 W4) as R4. fold (supp_of hb om t) in O1, R1, R4. fold (supp_of hb om t') in O2, R2, R4.
  set (s := supp_of hb om t) in *. set (s' := supp_of hb om t') in *. set (c5 := dq 5 100) in *. clearbody s s' c5. assert (NS : nneg s) by (apply nneg_okd; [exact O1|lra]). assert (NS' : nneg s') by (apply nneg_okd; [exact O2|lra]).
  apply min_mono; [exact O5|lra|exact (proj1 (nneg_mul z s' _ _ A2 NS'))|exact (proj1 (nneg_mul z s _ _ A2 NS))|].
  apply (nneg_mul_mono z z s' s _ _ _ _ A2 A2 NS' NS (Rle_refl _)). rewrite (E_fin _ (proj2 O1)), (E_fin _ (proj2 O2)). exact R4.
Qed.

(** ** tunnelling *)
Section X.
Variable fexp : sf -> sf.
Hypothesis X : exp_lib fexp.
Lemma exp_V x : V64 x = true -> V64 (fexp x) = true. Proof. apply (exp_dbl _ X). Qed.
Lemma tunnel_in b m hb t : okd (qtunnel fexp b m hb t) /\ 0 <= R (qtunnel fexp b m hb t) <= R (dq 5 100) \/ V64 b = false \/ V64 m = false \/ V64 hb = false \/ V64 t = false.
Proof.
  destruct (V64 b) eqn:VB; [|auto]. destruct (V64 m) eqn:VM; [|auto]. destruct (V64 hb) eqn:VH; [|auto]. destruct (V64 t) eqn:VT; [|auto 6]. left. unfold qtunnel. cbv zeta. destruct l5 as [O5 B5]. destruct lt1 as [OT BT].
  pose proof (clamp_in d0 (dq 5 100)) as C. rewrite (proj2 z_ok) in C. apply C; [apply z_ok|exact O5|lra|].
  assert (K : forall c x, V64 c = true -> V64 x = true -> V64 (fmin c x) = true) by (intros c x A B; unfold fmin; destruct (flt x c); assumption).
  assert (VB2 : V64 (fmax b (dq 1 100)) = true) by (apply max_V; [exact VB|vm_compute; reflexivity]).
  apply mul_V; [apply K; [apply OT|apply exp_V, max_V; [vm_compute; reflexivity|apply div_V; [apply mul_V; [vm_compute; reflexivity|apply sqrt_V, mul_V; [apply mul_V; [vm_compute; reflexivity|exact VM]|exact VB2]]|exact VH]]]|].
  apply exp_V. assert (OV : forall y, V64 y = true -> V64 (SFopp y) = true) by (intros [z|z| |z mm e] Q; exact Q). apply OV, K; [vm_compute; reflexivity|]. apply div_V; [apply mul_V; [vm_compute; reflexivity|apply max_V; [exact VT|reflexivity]]|apply mul_V; [vm_compute; reflexivity|exact VB2]].
Qed.
Definition base_of (b m hb : sf) : sf := fmin (dq 1 10) (fexp (fmax (dofZ (-30)) (ddiv (dmul (dmul (dofZ (-2)) d1) (sqrt_d (dmul (dmul (dofZ 2) m) (fmax b (dq 1 100))))) hb))).
Definition ratio_of (b t : sf) : sf := fmin (dofZ 10) (ddiv (dmul kB (fmax t d1)) (dmul (dofZ 2) (fmax b (dq 1 100)))).
Lemma tunnel_eq b m hb t : qtunnel fexp b m hb t = fmin (dq 5 100) (fmax d0 (dmul (base_of b m hb) (fexp (SFopp (ratio_of b t))))). Proof. reflexivity. Qed.
Lemma base_range b m hb : V64 b = true -> V64 m = true -> V64 hb = true -> okd (base_of b m hb) /\ 0 <= R (base_of b m hb) <= R (dq 1 10).
Proof.
  intros VB VM VH. unfold base_of. destruct lt1 as [OT BT]. apply min_nn; [exact OT|lra|].
  assert (VB2 : V64 (fmax b (dq 1 100)) = true) by (apply max_V; [exact VB|vm_compute; reflexivity]).
  set (y := fmax (dofZ (-30)) _). assert (VY : V64 y = true) by (apply max_V; [vm_compute; reflexivity|apply div_V; [apply mul_V; [vm_compute; reflexivity|apply sqrt_V, mul_V; [apply mul_V; [vm_compute; reflexivity|exact VM]|exact VB2]]|exact VH]]). clearbody y.
  destruct (nan_dec y) as [->|NY]; [left; apply (exp_nan _ X)|]. pose proof (exp_V y VY) as VE. pose proof (exp_pos _ X y VY NY) as P. right. assert (D : dbl (fexp y)) by (split; [exact VE|intros C; rewrite C in P; discriminate]). split; [exact D|]. apply (leE d0 _ (okd_dbl _ (proj1 z_ok)) D) in P. rewrite E0 in P. exact P.
Qed.
Lemma max0_nneg x : nneg x -> fmax d0 x = x \/ (fmax d0 x = d0 /\ E x = 0).
Proof. intros [D P]. unfold fmax. destruct (flt d0 x) eqn:A; [left; reflexivity|right]. split; [reflexivity|]. apply Rle_antisym; [|exact P]. apply Rnot_lt_le. intros Q. rewrite <- E0 in Q. apply (ltE _ _ (okd_dbl _ (proj1 z_ok)) D) in Q. congruence. Qed.
Lemma tunnel_anti b m hb t t' : lib_mono fexp -> bnd (-20) 20 b -> V64 m = true -> V64 hb = true -> dbl t -> dbl t' -> E t <= E t' -> R (qtunnel fexp b m hb t') <= R (qtunnel fexp b m hb t).
Proof.
  intros XM B VM VH T T' LE. rewrite !tunnel_eq. destruct l5 as [O5 B5]. destruct (base_range b m hb (proj1 (proj1 B)) VM VH) as [OB BB0]. set (ba := base_of b m hb) in *. clearbody ba.
  destruct (max_mono t t' d1 T T' (proj1 o_ok) ltac:(rewrite (proj2 o_ok); lra) LE) as (X1 & X2 & _ & X4). destruct kB_near as [KB _].
  assert (BM : bnd (-20) 21 (dmul (dofZ 2) (fmax b (dq 1 100)))).
  { assert (H : bnd (-7) (-6) (dq 1 100)) by (apply lit_bnd; vm_compute; reflexivity). assert (F : bnd (-20) 20 (fmax b (dq 1 100))) by (unfold fmax; destruct (flt b (dq 1 100)); [eapply bnd_weak; [exact H|lia|lia]|exact B]). destruct (bnd_mul _ _ _ _ _ _ two_bnd F) as [Q _]; try lia. eapply bnd_weak; [exact Q|lia|lia]. }
  pose proof (proj1 (nneg_mul kB _ _ _ KB X1)) as Y1. pose proof (proj1 (nneg_mul kB _ _ _ KB X2)) as Y2. pose proof (nneg_mul_mono kB kB _ _ _ _ _ _ KB KB X1 X2 (Rle_refl _) X4) as Y4.
  pose proof (nneg_div _ _ _ _ Y1 BM) as Z1. pose proof (nneg_div _ _ _ _ Y2 BM) as Z2. pose proof (nneg_div_mono _ _ _ _ _ Y1 Y2 BM Y4) as Z4.
  destruct (ofZ_ex 10 ltac:(lia)) as [OZ EZ]. destruct (min_nn (dofZ 10) _ OZ ltac:(rewrite EZ; lra) (or_intror Z1)) as [OR1 BR1]. destruct (min_nn (dofZ 10) _ OZ ltac:(rewrite EZ; lra) (or_intror Z2)) as [OR2 BR2]. pose proof (min_mono (dofZ 10) _ _ OZ ltac:(rewrite EZ; lra) Z1 Z2 Z4) as RM.
  fold (ratio_of b t) in OR1, BR1, RM. fold (ratio_of b t') in OR2, BR2, RM. set (r := ratio_of b t) in *. set (r' := ratio_of b t') in *. clearbody r r'.
  assert (NG : forall y, okd y -> 0 <= R y -> neg (SFopp y)) by (intros y O P; apply nneg_opp, nneg_okd; assumption). destruct (neg_exp fexp X _ (NG r OR1 ltac:(lra))) as [OE1 BE1]. destruct (neg_exp fexp X _ (NG r' OR2 ltac:(lra))) as [OE2 BE2].
  assert (EM : R (fexp (SFopp r')) <= R (fexp (SFopp r))). { apply (fle_d _ _ OE2 OE1). apply XM; [apply (opp_okd _ OR2)|apply (opp_okd _ OR1)|]. apply (fle_d _ _ (opp_okd _ OR2) (opp_okd _ OR1)). rewrite !opp_R. lra. }
  set (e := fexp (SFopp r)) in *. set (e' := fexp (SFopp r')) in *. clearbody e e'. destruct (nneg_mul2 ba e OB OE1 ltac:(lra) ltac:(lra)) as [P1 Q1]. destruct (nneg_mul2 ba e' OB OE2 ltac:(lra) ltac:(lra)) as [P2 Q2].
  assert (PL : E (dmul ba e') <= E (dmul ba e)). { rewrite Q1, Q2. apply Rle_min_compat_l. apply (rnd_le 53 1024). apply Rmult_le_compat_l; lra. }
  set (p := dmul ba e) in *. set (p' := dmul ba e') in *. clearbody p p'.
  assert (NM : forall y, nneg y -> nneg (fmax d0 y) /\ E (fmax d0 y) = E y). { intros y N. destruct (max0_nneg y N) as [->|[-> Q]]; [split; [exact N|reflexivity]|]. split; [exact N0|]. rewrite E0, Q. reflexivity. }
  destruct (NM p P1) as [M1 F1]. destruct (NM p' P2) as [M2 F2]. apply min_mono; [exact O5|lra|exact M2|exact M1|lra].
Qed.
End X.
