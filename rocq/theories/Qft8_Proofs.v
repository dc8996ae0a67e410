(** Zero-point energy, enhancement factors, charge deposition. *)
From Coq Require Import List NArith ZArith Bool Arith Lia Reals Lra SpecFloat.
Import ListNotations.
From Flocq Require Import Core BinarySingleNaN.
From Verif Require Import Outcome Words Floats FloatsR HealthFloat Bits_Model RMA3_Proofs Hw_Proofs Hw2_Proofs Qft_Model Qft_Spec Qft2_Proofs Qft4_Proofs Qft5_Proofs Qft6_Proofs Qft7_Proofs.
Local Open Scope R_scope.

Lemma one_plus b y : okd y -> 0 <= R y <= b2 b -> (0 <= b < 1000)%Z -> bnd 0 (b + 1) (dadd d1 y) /\ R (dadd d1 y) = rnd64 (1 + R y) /\ 1 <= R (dadd d1 y).
Proof.
  intros O Y B. destruct (bnd_add 0 b d1 y) as [Q E]; [eapply bnd_weak; [exact one_bnd|lia|lia]|exact O|exact Y|lia|lia|]. rewrite (proj2 o_ok) in E. split; [exact Q|]. split; [exact E|]. destruct Q as [_ [Q _]]. exact Q.
Qed.
(** a double that is zero or between powers of two *)
Definition zbnd (a b : Z) (x : sf) : Prop := x = d0 \/ bnd a b x.
Lemma zbnd_R a b x : zbnd a b x -> okd x /\ 0 <= R x <= b2 b.
Proof. intros [->|B]; [split; [apply z_ok|rewrite (proj2 z_ok); pose proof (bpow_ge_0 radix2 b); lra]|]. pose proof (bnd_pos _ _ _ B). destruct B as [O B]. split; [exact O|lra]. Qed.
Lemma mul_z a b x : bnd a b x -> dmul x d0 = d0 /\ dmul d0 x = d0 /\ ddiv d0 x = d0.
Proof. intros B. destruct (bnd_shape _ _ _ B) as (m & e & ->). repeat split. Qed.
Lemma zbnd_mul a b c d x y : bnd a b x -> zbnd c d y -> (-1074 <= a + c)%Z -> (b + d <= 1000)%Z -> zbnd (a + c) (b + d) (dmul x y).
Proof. intros X [->|Y] L U; [left; apply (mul_z a b x X)|right; apply (bnd_mul a b c d); assumption]. Qed.
Lemma zbnd_div a b c d x y : zbnd a b x -> bnd c d y -> (-1074 <= a - d)%Z -> (b - c <= 1000)%Z -> zbnd (a - d) (b - c) (ddiv x y).
Proof. intros [->|X] Y L U; [left; apply (mul_z c d y Y)|right; apply (bnd_div a b c d); assumption]. Qed.

Lemma scale_bnd t : warm t -> bnd (-15) 0 (ddiv d1 (dadd d1 (ddiv t (dofZ 100)))).
Proof.
  intros W. assert (H : bnd 6 7 (dofZ 100)) by (apply lit_bnd; vm_compute; reflexivity). pose proof (zbnd_div (-20) 20 6 7 t (dofZ 100) W H ltac:(lia) ltac:(lia)) as Q. apply zbnd_R in Q. destruct Q as [O B].
  destruct (one_plus 14 _ O B ltac:(lia)) as [B1 _]. exact (proj1 (bnd_div 0 0 0 15 d1 _ one_bnd B1 ltac:(lia) ltac:(lia))).
Qed.
Lemma zp_bnd hb mass lat t : bnd (-100) 100 hb -> bnd (-200) 100 mass -> bnd (-100) 100 lat -> warm t -> bnd (-300) 400 (zero_point hb mass lat t).
Proof.
  intros H M L W. assert (EV : bnd (-63) (-62) eV_J) by (apply lit_bnd; vm_compute; reflexivity). assert (T10 : bnd (-34) (-33) (dq 1 (10 ^ 10)%positive)) by (apply lit_bnd; vm_compute; reflexivity).
  assert (Z10 : bnd 3 4 (dofZ 10)) by (apply lit_bnd; vm_compute; reflexivity). assert (HF : bnd (-1) (-1) (dq 1 2)). { split; [apply half_R|]. rewrite (proj2 half_R). change (b2 (-1)) with (/ 2). lra. }
  unfold zero_point. cbv zeta. destruct (bnd_mul _ _ _ _ _ _ H EV) as [A1 _]; try lia. destruct (bnd_mul _ _ _ _ _ _ L T10) as [A2 _]; try lia. destruct (bnd_mul _ _ _ _ _ _ A2 A2) as [A3 _]; try lia.
  destruct (bnd_div _ _ _ _ _ _ Z10 A3) as [A4 _]; try lia. destruct (bnd_div _ _ _ _ _ _ A4 M) as [A5 _]; try lia.
  assert (A6 : bnd (-116) 236 (sqrt_d (ddiv (ddiv (dofZ 10) (dmul (dmul lat (dq 1 (10 ^ 10)%positive)) (dmul lat (dq 1 (10 ^ 10)%positive)))) mass))) by (apply bnd_sqrt; [eapply bnd_weak; [exact A5|lia|lia]|lia|lia]).
  destruct (bnd_mul _ _ _ _ _ _ HF A1) as [A7 _]; try lia. destruct (bnd_mul _ _ _ _ _ _ A7 A6) as [A8 _]; try lia. destruct (bnd_div _ _ _ _ _ _ A8 EV) as [A9 _]; try lia.
  destruct (bnd_mul _ _ _ _ _ _ A9 (scale_bnd t W)) as [A10 _]; try lia. eapply bnd_weak; [exact A10|lia|lia].
Qed.
(** ** the cap 1 + kT/B *)
Definition kBr : Rdefinitions.R := 8617333262 / 100000000000000.
Lemma kB_near : bnd (-14) (-13) kB /\ near 1 kB kBr.
Proof.
  split; [apply lit_bnd; vm_compute; reflexivity|]. assert (H : kB = S754_finite false 6358469651279148 (-66)) by (vm_compute; reflexivity). unfold near, u12, kBr. rewrite H, fin_R. cbn [cond_Zopp]. change (b2 (-66)) with (/ 73786976294838206464). lra.
Qed.
Lemma kt_range B t : bnd (-20) 20 B -> warm t -> zbnd (-60) 30 (ddiv (dmul kB t) B) /\ R (ddiv (dmul kB t) B) <= kBr * R t / R B * (1 + 6 * u12).
Proof.
  intros HB W. destruct kB_near as [KB KN]. destruct W as [->|T].
  - destruct (mul_z _ _ _ KB) as (E1 & _). rewrite E1. destruct (mul_z _ _ _ HB) as (_ & _ & E2). rewrite E2. split; [left; reflexivity|]. rewrite (proj2 z_ok), Rmult_0_r. unfold Rdiv. rewrite Rmult_0_l, Rmult_0_l. lra.
  - destruct (near_mul 1 0 _ _ _ _ kB t kBr (R t) KB T KN (near_self _ _ _ T)) as [B1 N1]; try lia. destruct (near_div 2 0 _ _ _ _ _ B _ (R B) B1 HB N1 (near_self _ _ _ HB)) as [B2 N2]; try lia.
    split; [right; eapply bnd_weak; [exact B2|lia|lia]|]. destruct N2 as [P [_ N2]]. replace (2 + 0 + 2)%Z with 4%Z in N2 by lia. apply Rle_trans with (1 := N2). apply Rmult_le_compat_l; [lra|]. unfold u12. lra.
Qed.
Lemma cap_range c t : bnd (-20) 20 (c_barrier c) -> warm t -> okd (enh_cap c t) /\ 1 <= R (enh_cap c t) <= (1 + kBr * R t / R (c_barrier c)) * (1 + / 1000000000).
Proof.
  intros B W. destruct (kt_range _ t B W) as [Z0 U]. destruct (zbnd_R _ _ _ Z0) as [O Q]. unfold enh_cap. destruct (one_plus 30 _ O Q ltac:(lia)) as [B1 [E1 L]]. split; [apply B1|]. split; [exact L|]. rewrite E1.
  assert (N : b2 (-1022) <= 1 + R (ddiv (dmul kB t) (c_barrier c))) by (apply small_normal; lra). pose proof (rnd64_rel _ N) as RR. assert (KP : 0 <= kBr * R t / R (c_barrier c)).
  { pose proof (bnd_pos _ _ _ B) as PB. destruct (warm_R t W) as [_ BT]. unfold Rdiv, kBr. apply Rmult_le_pos; [nra|apply Rlt_le, Rinv_0_lt_compat; exact PB]. }
  unfold u12 in *. set (q := R (ddiv (dmul kB t) (c_barrier c))) in *. set (k := kBr * R t / R (c_barrier c)) in *. clearbody q k. clear -RR U KP Q. nra.
Qed.
Section X.
Variable fexp : sf -> sf.
Hypothesis X : exp_lib fexp.
Lemma five_p n p : (1 <= n <= 5)%Z -> inr 0 1 p -> okd (dadd d1 (dmul (dofZ n) p)) /\ 1 <= R (dadd d1 (dmul (dofZ n) p)).
Proof.
  intros N [O B]. destruct (ofZ_ex n ltac:(lia)) as [On En]. assert (NR : 1 <= IZR n <= 5) by (split; apply IZR_le; lia). destruct (mul_d _ _ On O) as [Om Em]; [rewrite En; apply (mid_of 0 5); [lia|lia|nra]|]. rewrite En in Em.
  assert (M : 0 <= R (dmul (dofZ n) p) <= 5) by (rewrite Em; apply (rnd_int 0 5); [lia|lia|nra]). destruct (one_plus 3 _ Om ltac:(change (b2 3) with 8; lra) ltac:(lia)) as [B1 [_ L]]. split; [apply B1|exact L].
Qed.
Lemma min_cap a c : okd a -> okd c -> 1 <= R a -> 1 <= R c -> okd (fmin a c) /\ 1 <= R (fmin a c) <= R c.
Proof. intros A C LA LC. destruct (fmin_d a c A C) as [O E]. split; [exact O|]. rewrite E. split; [apply Rmin_glb; assumption|apply Rmin_r]. Qed.
Lemma mul_one_id x : okd x -> 1 <= R x <= b2 100 -> okd (dmul x d1) /\ R (dmul x d1) = R x.
Proof.
  intros O L. assert (B : bnd 0 100 x) by (split; assumption). destruct (bnd_mul _ _ _ _ _ _ B one_bnd) as [B1 E1]; try lia. split; [apply B1|]. rewrite E1, (proj2 o_ok), Rmult_1_r. apply (rnd_R 53 1024). apply O.
Qed.
(** at or above the threshold each of the three factors is between 1 and the cap *)
Definition good_factor (c : crystal) (t f : sf) : Prop := okd f /\ 1 <= R f <= (1 + kBr * R t / R (c_barrier c)) * (1 + / 1000000000).
Lemma factors_ok c q t mass : bnd (-20) 20 (c_barrier c) -> bnd (-100) 100 (c_const c) -> bnd (-100) 100 (hbar q) -> bnd (-200) 100 mass -> warm t -> flt t (temp_threshold q) = false ->
  exists fi fv fc, factors fexp c q t mass = (fi, fv, fc, d1) /\ good_factor c t (dmul fi d1) /\ good_factor c t (dmul fv d1) /\ good_factor c t (dmul fc d1).
Proof.
  intros B L H M W TH. unfold factors. rewrite TH. cbv zeta. do 3 eexists. split; [reflexivity|].
  assert (P : inr 0 1 (tunneling fexp (c_barrier c) mass (hbar q) t)) by (apply (tunnel_range fexp X); [eapply bnd_weak; [exact B|lia|lia]|eapply bnd_weak; [exact M|lia|lia]|eapply bnd_weak; [exact H|lia|lia]|apply warm_cold; exact W]).
  destruct (cap_range c t B W) as [OC [LC UC]]. pose proof (zp_bnd _ _ _ t H M L W) as ZP.
  assert (CB : R (enh_cap c t) <= b2 100).
  { unfold enh_cap. destruct (kt_range _ t B W) as [Z0 _]. destruct (zbnd_R _ _ _ Z0) as [O Q]. destruct (one_plus 30 _ O Q ltac:(lia)) as [[_ [_ B1]] _]. apply Rle_trans with (1 := B1). apply bpow_le. lia. }
  assert (G : forall a, okd a -> 1 <= R a -> good_factor c t (dmul (fmin a (enh_cap c t)) d1)).
  { intros a Oa La. destruct (min_cap a _ Oa OC La LC) as [OM [M1 M2]]. destruct (mul_one_id _ OM ltac:(lra)) as [O1 E1]. split; [exact O1|]. rewrite E1. lra. }
  split; [|split]; apply G.
  - apply (five_p 5 _ ltac:(lia) P). - apply (five_p 5 _ ltac:(lia) P).
  - apply (five_p 3 _ ltac:(lia) P). - apply (five_p 3 _ ltac:(lia) P).
  - destruct (bnd_mul _ _ _ _ _ _ two_bnd ZP) as [A1 _]; try lia. destruct (bnd_div _ _ _ _ _ _ A1 B) as [A2 _]; try lia. destruct (one_plus 421 _ (proj1 A2)) as [B1 _]; [|lia|apply B1]. pose proof (bnd_pos _ _ _ A2). destruct A2 as [_ [_ A2]]. split; [lra|]. apply Rle_trans with (1 := A2). apply bpow_le. lia.
  - destruct (bnd_mul _ _ _ _ _ _ two_bnd ZP) as [A1 _]; try lia. destruct (bnd_div _ _ _ _ _ _ A1 B) as [A2 _]; try lia. destruct (one_plus 421 _ (proj1 A2)) as [_ [_ B1]]; [|lia|exact B1]. pose proof (bnd_pos _ _ _ A2). destruct A2 as [_ [_ A2]]. split; [lra|]. apply Rle_trans with (1 := A2). apply bpow_le. lia.
Qed.
End X.
