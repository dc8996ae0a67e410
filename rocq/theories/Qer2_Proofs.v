(** Transition probabilities, decoherence, displacement energies, cascades, device sensitivity. *)
From Coq Require Import List NArith ZArith Bool Arith Lia Reals Lra SpecFloat.
Import ListNotations.
From Flocq Require Import Core BinarySingleNaN.
From Verif Require Import Outcome Words Floats FloatsR HealthFloat Bits_Model RMA3_Proofs Tester3_Proofs Hw_Proofs Hw2_Proofs Qft_Model Qft_Spec Qft2_Proofs Qft4_Proofs Qft5_Proofs Qft6_Proofs Qft7_Proofs Qft8_Proofs Qft9_Proofs Qer_Spec Qer_Proofs.
Local Open Scope R_scope.

(** ** signs *)
Lemma bra_opp s m e l : SpecFloat.binary_round_aux 53 1024 (negb s) m e l = SFopp (SpecFloat.binary_round_aux 53 1024 s m e l).
Proof.
  unfold SpecFloat.binary_round_aux. destruct (shr_fexp 53 1024 m e l) as [mrs e']. destruct (shr_fexp 53 1024 _ e' loc_Exact) as [mrs2 e2].
  destruct (shr_m mrs2); try reflexivity. destruct (Zle_bool e2 (1024 - 53)); reflexivity.
Qed.
Lemma opp_div x y a b : bnd a b y -> ddiv (SFopp x) y = SFopp (ddiv x y).
Proof.
  intros B. destruct (bnd_shape _ _ _ B) as (m & e & ->). destruct x as [s|s| |s m' e']; try (destruct s; reflexivity); try reflexivity.
  change (SFopp (S754_finite s m' e')) with (S754_finite (negb s) m' e'). unfold ddiv, SFdiv. destruct (SFdiv_core_binary 53 1024 (Z.pos m') e' (Z.pos m) e) as [[q z] l]. rewrite <- bra_opp. destruct s; reflexivity.
Qed.
Lemma nneg_okd x : okd x -> 0 <= R x -> nneg x.
Proof. intros O P. split; [apply okd_dbl; exact O|]. rewrite (E_fin _ (proj2 O)). exact P. Qed.
(** dividing by more gives less *)
Lemma nneg_div_anti x y y' a b c d : nneg x -> bnd a b y -> bnd c d y' -> R y <= R y' -> E (ddiv x y') <= E (ddiv x y).
Proof.
  intros N B B' L. destruct (nneg_cases x N) as [->|[O P]]; [rewrite (inf_div _ _ _ B), (inf_div _ _ _ B'); lra|].
  pose proof (bnd_pos _ _ _ B). pose proof (bnd_pos _ _ _ B'). destruct (divE x y O (proj1 B) P ltac:(lra)) as (_ & E1 & _). destruct (divE x y' O (proj1 B') P ltac:(lra)) as (_ & E2 & _). rewrite E1, E2.
  apply Rle_min_compat_l. apply (rnd_le 53 1024). unfold Rdiv. apply Rmult_le_compat_l; [exact P|]. apply Rinv_le; lra.
Qed.

Section X.
Variables fexp : sf -> sf.
Hypothesis X : exp_lib fexp.

(** ** transitions *)
Lemma e15 : bnd 49 50 (dofZ (10 ^ 15)). Proof. apply lit_bnd. vm_compute. reflexivity. Qed.
Definition width (temp hb : sf) : sf := dadd (dmul kB temp) (dmul hb (dofZ (10 ^ 15))).
Lemma width_ok t hb : warm t -> bnd (-100) 100 hb -> bnd (-51) 151 (width t hb) /\ R (width t hb) = rnd64 (R (dmul kB t) + R (dmul hb (dofZ (10 ^ 15)))) /\ okd (dmul kB t) /\ 0 <= R (dmul kB t) /\ R (dmul kB t) = rnd64 (R kB * R t).
Proof.
  intros W H. destruct (bnd_mul _ _ _ _ _ _ H e15) as [B1 _]; try lia. destruct kB_near as [KB _].
  assert (KT : okd (dmul kB t) /\ 0 <= R (dmul kB t) <= b2 150 /\ R (dmul kB t) = rnd64 (R kB * R t)).
  { destruct W as [->|W].
    - destruct (mul_z _ _ _ KB) as [Z0 _]. rewrite Z0, (proj2 z_ok). split; [apply z_ok|]. split; [split; [lra|apply bpow_ge_0]|]. rewrite Rmult_0_r, rnd_0. reflexivity.
    - destruct (bnd_mul _ _ _ _ _ _ KB W) as [B2 E2]; try lia. split; [exact (proj1 B2)|]. split; [|exact E2]. split; [apply Rlt_le; exact (bnd_pos _ _ _ B2)|]. apply Rle_trans with (1 := proj2 (proj2 B2)). apply bpow_le. lia. }
  destruct KT as (O & K & EK). unfold width.
  assert (B : b2 (-51) <= R (dmul kB t) + R (dmul hb (dofZ (10 ^ 15))) <= b2 151). { destruct B1 as [_ B1]. change (-100 + 49)%Z with (-51)%Z in B1. change (100 + 50)%Z with 150%Z in B1. change (b2 151) with (b2 (150 + 1)). rewrite bpow_plus. change (b2 1) with 2. lra. }
  destruct (rnd_bnd (-51) 151 _ ltac:(lia) ltac:(lia) B) as [RB OV]. destruct O as [V F]. destruct B1 as [[V1 F1] _].
  destruct (add_R 53 1024 (dmul kB t) (dmul hb (dofZ (10 ^ 15))) V V1 F F1 OV) as (Es & Fs & Vs). fold (dadd (dmul kB t) (dmul hb (dofZ (10 ^ 15)))) in *. split; [split; [split; assumption|rewrite Es; exact RB]|]. split; [exact Es|]. split; [split; assumption|]. split; [lra|exact EK].
Qed.
Lemma raw_ok e t hb : nneg e -> warm t -> bnd (-100) 100 hb -> inr 0 1 (transition_raw fexp e t hb) /\ R (transition_raw fexp e t hb) = rnd64 (1 - R (fexp (SFopp (ddiv e (width t hb))))) /\ neg (SFopp (ddiv e (width t hb))).
Proof.
  intros N W H. destruct (width_ok t hb W H) as [B _]. unfold transition_raw. fold (width t hb). rewrite (opp_div _ _ _ _ B).
  pose proof (nneg_opp _ (nneg_div e _ _ _ N B)) as NG. destruct (neg_exp fexp X _ NG) as [O BX]. destruct (sub_d d1 _ (proj1 o_ok) O) as [Os Es]; [rewrite (proj2 o_ok); apply (mid_of 0 1); lia || lra|]. rewrite (proj2 o_ok) in Es.
  split; [split; [exact Os|rewrite Es; apply (rnd_int 0 1); lia || lra]|]. split; [exact Es|exact NG].
Qed.
Lemma raw_mono e e' t t' hb : lib_mono fexp -> nneg e -> nneg e' -> warm t -> warm t' -> bnd (-100) 100 hb -> E e <= E e' -> R t' <= R t -> R (transition_raw fexp e t hb) <= R (transition_raw fexp e' t' hb).
Proof.
  intros XM N N' W W' H L LT. destruct (raw_ok e t hb N W H) as (_ & E1 & G1). destruct (raw_ok e' t' hb N' W' H) as (_ & E2 & G2). rewrite E1, E2. apply (rnd_le 53 1024).
  destruct (neg_exp fexp X _ G1) as [O1 _]. destruct (neg_exp fexp X _ G2) as [O2 _]. assert (LX : fle (fexp (SFopp (ddiv e' (width t' hb)))) (fexp (SFopp (ddiv e (width t hb)))) = true); [|apply (fle_d _ _ O2 O1) in LX; lra].
  apply XM; [apply G2|apply G1|]. apply (leE _ _ (proj1 G2) (proj1 G1)). rewrite !opp_E. destruct (width_ok t hb W H) as (B & F1 & _ & _ & K1). destruct (width_ok t' hb W' H) as (B' & F2 & _ & _ & K2).
  assert (LW : R (width t' hb) <= R (width t hb)). { rewrite F1, F2. apply (rnd_le 53 1024). rewrite K1, K2. apply Rplus_le_compat_r. apply (rnd_le 53 1024). apply Rmult_le_compat_l; [|exact LT]. apply Rlt_le. exact (bnd_pos _ _ _ (proj1 kB_near)). }
  pose proof (nneg_div_mono e e' (width t hb) _ _ N N' B L). pose proof (nneg_div_anti e' (width t' hb) (width t hb) _ _ _ _ N' B' B LW). lra.
Qed.
(** the adjustments *)
Definition adjust (t : ptype) (p : sf) : sf := dclamp (match t with Photon => fmax d0 (dmul p (dq 3 2)) | Electron => fmin d1 (dmul p (dq 12 10)) | _ => p end) d0 d1.
Lemma transition_adjust e temp q t mass : masses q t = Some mass -> transition_prob fexp e temp q t = Ret (adjust t (transition_raw fexp e temp (hbar q))).
Proof. intros M. unfold transition_prob, getMass. rewrite M. reflexivity. Qed.
Lemma l32 : okd (dq 3 2) /\ R (dq 3 2) = 3 / 2.
Proof. split; [split; vm_compute; reflexivity|]. assert (H : dq 3 2 = S754_finite false 6755399441055744 (-52)) by (vm_compute; reflexivity). rewrite H, fin_R. cbn [cond_Zopp]. change (b2 (-52)) with (/ IZR 4503599627370496). lra. Qed.
Lemma l12 : okd (dq 12 10) /\ 11 / 10 <= R (dq 12 10) <= 13 / 10.
Proof. split; [split; vm_compute; reflexivity|]. assert (H : dq 12 10 = S754_finite false 5404319552844595 (-52)) by (vm_compute; reflexivity). rewrite H, fin_R. cbn [cond_Zopp]. change (b2 (-52)) with (/ IZR 4503599627370496). lra. Qed.
Lemma adjust_val p : inr 0 1 p -> exists a b, 1 <= a <= b /\
  (forall t, t <> Photon -> t <> Electron -> adjust t p = p) /\
  (R (adjust Electron p) = Rmin 1 (rnd64 (R p * a)) /\ okd (adjust Electron p)) /\ (R (adjust Photon p) = Rmin 1 (rnd64 (R p * b)) /\ okd (adjust Photon p)).
Proof.
  intros I. destruct I as [O B] eqn:EI. clear EI. destruct l32 as [O3 R3]. destruct l12 as [O2 R2]. exists (R (dq 12 10)), (3 / 2). split; [lra|].
  split; [intros t H1 H2; destruct t; try congruence; apply (clamp_inr _ I)|].
  assert (CL : forall x, okd x -> 0 <= R x -> okd (dclamp x d0 d1) /\ R (dclamp x d0 d1) = Rmin 1 (R x)).
  { intros x Ox Px. destruct (Rle_or_lt (R x) 1) as [C|C]; [rewrite clamp_inr by (split; [exact Ox|lra]); split; [exact Ox|symmetry; apply Rmin_right; exact C]|].
    unfold dclamp. assert (F1 : flt x d0 = false) by (destruct (flt x d0) eqn:Q; [apply (flt_d _ _ Ox (proj1 z_ok)) in Q; rewrite (proj2 z_ok) in Q; lra|reflexivity]). assert (F2 : flt d1 x = true) by (apply (flt_d _ _ (proj1 o_ok) Ox); rewrite (proj2 o_ok); exact C).
    rewrite F1, F2. split; [apply o_ok|]. rewrite (proj2 o_ok). symmetry. apply Rmin_left. lra. }
  destruct (mul_d p (dq 12 10) O O2) as [Oe Ee]; [apply (mid_of 0 2); [lia|lia|nra]|]. destruct (mul_d p (dq 3 2) O O3) as [Op Ep]; [apply (mid_of 0 2); [lia|lia|rewrite R3; nra]|]. rewrite R3 in Ep.
  assert (Pe : 0 <= R (dmul p (dq 12 10))) by (rewrite Ee; apply rnd_pos; nra). assert (Pp : 0 <= R (dmul p (dq 3 2))) by (rewrite Ep; apply rnd_pos; nra). split.
  - destruct (fmin_d d1 _ (proj1 o_ok) Oe) as [Om Em]. unfold adjust. rewrite (proj2 o_ok) in Em. destruct (CL _ Om) as [Oc Ec]; [rewrite Em; apply Rmin_case; lra|]. split; [|exact Oc]. rewrite Ec, Em, <- Ee. apply Rmin_right. apply Rmin_l.
  - destruct (fmax_d d0 _ (proj1 z_ok) Op) as [Om Em]. unfold adjust. rewrite (proj2 z_ok) in Em. rewrite Rmax_right in Em by exact Pp. destruct (CL _ Om) as [Oc Ec]; [rewrite Em; exact Pp|]. split; [|exact Oc]. rewrite Ec, Em, <- Ep. reflexivity.
Qed.
Definition rank (t : ptype) : Z := match t with Photon => 2 | Electron => 1 | _ => 0 end.
Lemma adjust_mono p p' t : inr 0 1 p -> inr 0 1 p' -> R p <= R p' -> R (adjust t p) <= R (adjust t p').
Proof.
  intros I I' L. assert (K : forall q, inr 0 1 q -> (R (adjust Electron q) = Rmin 1 (rnd64 (R q * R (dq 12 10))) /\ R (adjust Photon q) = Rmin 1 (rnd64 (R q * (3 / 2))))).
  { intros q Iq. destruct (Iq) as [O B]. destruct l32 as [O3 R3]. destruct l12 as [O2 R2]. destruct (mul_d q (dq 12 10) O O2) as [Oe Ee]; [apply (mid_of 0 2); [lia|lia|nra]|]. destruct (mul_d q (dq 3 2) O O3) as [Op Ep]; [apply (mid_of 0 2); [lia|lia|rewrite R3; nra]|]. rewrite R3 in Ep.
    assert (Pe : 0 <= R (dmul q (dq 12 10))) by (rewrite Ee; apply rnd_pos; nra). assert (Pp : 0 <= R (dmul q (dq 3 2))) by (rewrite Ep; apply rnd_pos; nra).
    assert (CL : forall x, okd x -> 0 <= R x -> R (dclamp x d0 d1) = Rmin 1 (R x)).
    { intros x Ox Px. destruct (Rle_or_lt (R x) 1) as [C|C]; [rewrite clamp_inr by (split; [exact Ox|lra]); symmetry; apply Rmin_right; exact C|].
      unfold dclamp. assert (F1 : flt x d0 = false) by (destruct (flt x d0) eqn:Q; [apply (flt_d _ _ Ox (proj1 z_ok)) in Q; rewrite (proj2 z_ok) in Q; lra|reflexivity]). assert (F2 : flt d1 x = true) by (apply (flt_d _ _ (proj1 o_ok) Ox); rewrite (proj2 o_ok); exact C).
      rewrite F1, F2, (proj2 o_ok). symmetry. apply Rmin_left. lra. }
    destruct (fmin_d d1 _ (proj1 o_ok) Oe) as [Om Em]. rewrite (proj2 o_ok) in Em. destruct (fmax_d d0 _ (proj1 z_ok) Op) as [Ox Ex]. rewrite (proj2 z_ok), Rmax_right in Ex by exact Pp. unfold adjust. split.
    - rewrite (CL _ Om) by (rewrite Em; apply Rmin_case; lra). rewrite Em, <- Ee. apply Rmin_right. apply Rmin_l.
    - rewrite (CL _ Ox) by (rewrite Ex; exact Pp). rewrite Ex, Ep. reflexivity. }
  destruct (K p I) as [KE KP]. destruct (K p' I') as [KE' KP']. pose proof (proj2 l12). destruct I as [O B]. destruct I' as [O' B'].
  destruct t; try (unfold adjust; rewrite (clamp_inr p), (clamp_inr p') by (split; assumption); exact L); [rewrite KE, KE'|rewrite KP, KP']; apply Rle_min_compat_l; apply (rnd_le 53 1024); nra.
Qed.
Lemma adjust_rank p t t' : inr 0 1 p -> (rank t <= rank t')%Z -> R (adjust t p) <= R (adjust t' p) /\ inr 0 1 (adjust t p).
Proof.
  intros I L. destruct (adjust_val p I) as (a & b & AB & Z0 & [Z1 O1] & [Z2 O2]). destruct I as [O B].
  assert (P0 : R p <= rnd64 (R p * a)). { rewrite <- (rnd_R 53 1024 p) at 1 by apply O. apply (rnd_le 53 1024). nra. }
  assert (P1 : rnd64 (R p * a) <= rnd64 (R p * b)) by (apply (rnd_le 53 1024); nra).
  assert (V : forall k, R (adjust k p) = match k with Photon => Rmin 1 (rnd64 (R p * b)) | Electron => Rmin 1 (rnd64 (R p * a)) | _ => R p end) by (intros k; destruct k; try (rewrite Z0 by discriminate; reflexivity); assumption).
  assert (OK : okd (adjust t p)) by (destruct t; try (rewrite Z0 by discriminate; exact O); assumption).
  split; [rewrite !V|split; [exact OK|rewrite V]].
  - destruct t, t'; cbn in L; try lia; try lra; try (apply Rmin_glb; lra); apply Rle_min_compat_l; exact P1.
  - destruct t; try lra; (split; [apply Rmin_case; lra|apply Rmin_l]).
Qed.
(** ** NaN *)
Lemma transition_nan t : adjust t S754_nan = match t with Photon => d0 | Electron => d1 | _ => S754_nan end.
Proof. destruct t; vm_compute; reflexivity. Qed.
End X.
