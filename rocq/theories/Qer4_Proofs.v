(** Defect corrections, displacement energies, cascades, device sensitivity. *)
From Coq Require Import List NArith ZArith Bool Arith Lia Reals Lra SpecFloat FinFun.
Import ListNotations.
From Flocq Require Import Core BinarySingleNaN.
From Verif Require Import Outcome Words Floats FloatsR HealthFloat Bits_Model RMA3_Proofs Tester3_Proofs Hw_Proofs Hw2_Proofs Qft_Model Qft_Spec Qft2_Proofs Qft4_Proofs Qft5_Proofs Qft6_Proofs Qft7_Proofs Qft8_Proofs Qft9_Proofs Qer_Spec Qer_Proofs Qer2_Proofs Qer3_Proofs.

(** ** corrections *)
Section X.
Variable fexp : sf -> sf.
Definition times (x : sf) (o : option (list sf)) : option (list sf) := option_map (map (fun v => dmul v x)) o.
Lemma scale_at m t x k : scale_entry m t x k = if ptype_eqb k t then times x (m k) else m k.
Proof.
  unfold scale_entry, times. destruct (m t) as [l|] eqn:M.
  - unfold pset. destruct (ptype_eqb k t) eqn:Q; [|reflexivity]. apply peq_eq in Q. subst. rewrite M. reflexivity.
  - destruct (ptype_eqb k t) eqn:Q; [|reflexivity]. apply peq_eq in Q. subst. rewrite M. reflexivity.
Qed.
Lemma corr_list c q temp l : NoDup l -> (forall t, In t l -> masses q t <> None) -> forall d, exists d', for_each (correct_type fexp c q temp) l d = Ret d' /\
  (forall k, ~ In k l -> interst d' k = interst d k /\ vacs d' k = vacs d k /\ clus d' k = clus d k) /\
  (forall k mass, In k l -> masses q k = Some mass -> let '(fi, fv, fc, s) := factors fexp c q temp mass in
     interst d' k = times (dmul fi s) (interst d k) /\ vacs d' k = times (dmul fv s) (vacs d k) /\ clus d' k = times (dmul fc s) (clus d k)).
Proof.
  induction l as [|t l IH]; intros ND M d.
  - exists d. split; [reflexivity|]. split; [auto|]. intros k mass [].
  - inversion ND as [|? ? NI' ND']; subst. destruct (masses q t) as [mass|] eqn:MT; [|exfalso; apply (M t); [left; reflexivity|exact MT]].
    cbn [for_each]. unfold correct_type at 1. unfold getMass. rewrite MT. cbn [obind]. destruct (factors fexp c q temp mass) as [[[fi fv] fc] s] eqn:F. cbn [obind].
    set (d1' := mkD _ _ _). destruct (IH ND' (fun k Ik => M k (or_intror Ik)) d1') as (d' & FE & K1 & K2). exists d'. split; [exact FE|]. split.
    + intros k NK. assert (NT : ptype_eqb k t = false). { destruct (ptype_eqb k t) eqn:Q; [|reflexivity]. apply peq_eq in Q. subst. exfalso. apply NK. left. reflexivity. }
      destruct (K1 k) as (A & B & C); [intros Q; apply NK; right; exact Q|]. rewrite A, B, C. unfold d1'. cbn [interst vacs clus]. rewrite !scale_at, NT. auto.
    + intros k m' [<-|IK] MK.
      * rewrite MT in MK. injection MK as <-. rewrite F. destruct (K1 t NI') as (A & B & C). rewrite A, B, C. unfold d1'. cbn [interst vacs clus]. rewrite !scale_at, peq_refl. auto.
      * assert (NT : ptype_eqb k t = false). { destruct (ptype_eqb k t) eqn:Q; [|reflexivity]. apply peq_eq in Q. subst. contradiction. }
        specialize (K2 k m' IK MK). destruct (factors fexp c q temp m') as [[[gi gv] gc] gs]. unfold d1' in K2. cbn [interst vacs clus] in K2. rewrite !scale_at, NT in K2. exact K2.
Qed.
Lemma corr_throw c q temp l : (exists t, In t l /\ masses q t = None) -> forall d, for_each (correct_type fexp c q temp) l d = Throw E_runtime_error.
Proof.
  induction l as [|t l IH]; intros (k & IK & MK) d; [destruct IK|]. cbn [for_each]. unfold correct_type at 1, getMass. destruct (masses q t) as [mass|] eqn:MT; [|reflexivity].
  cbn [obind]. destruct (factors fexp c q temp mass) as [[[fi fv] fc] s]. cbn [obind]. apply IH. exists k. destruct IK as [<-|IK]; [congruence|]. split; assumption.
Qed.
Lemma ptypes_nodup : NoDup ptypes. Proof. repeat constructor; cbn; intuition discriminate. Qed.
Lemma ptypes_all t : In t ptypes. Proof. destruct t; cbn; auto 10. Qed.
Lemma types_in d ts t : ts <> [] -> (In t (types_to_process d ts) <-> In t ts).
Proof.
  intros NE. destruct ts as [|a ts]; [congruence|]. unfold types_to_process. rewrite filter_In. split.
  - intros [_ H]. apply existsb_exists in H. destruct H as (x & IX & Q). apply peq_eq in Q. subst. exact IX.
  - intros I. split; [apply ptypes_all|]. apply existsb_exists. exists t. split; [exact I|apply peq_refl].
Qed.
Lemma types_in_nil d t : In t (types_to_process d []) <-> (interst d t <> None \/ vacs d t <> None \/ clus d t <> None).
Proof.
  unfold types_to_process. rewrite filter_In. unfold present. split.
  - intros [_ H]. destruct (interst d t), (vacs d t), (clus d t); cbn in H; try discriminate; (left; discriminate) || (right; left; discriminate) || (right; right; discriminate).
  - intros H. split; [apply ptypes_all|]. destruct (interst d t), (vacs d t), (clus d t); try reflexivity. intuition congruence.
Qed.
Lemma types_nodup d ts : NoDup (types_to_process d ts).
Proof. destruct ts; apply NoDup_filter, ptypes_nodup. Qed.
Lemma types_same d ts ts' : ts <> [] -> ts' <> [] -> (forall t, In t ts <-> In t ts') -> types_to_process d ts = types_to_process d ts'.
Proof.
  intros N N' H. destruct ts as [|a ts]; [congruence|]. destruct ts' as [|b ts']; [congruence|]. unfold types_to_process. apply filter_ext. intros t.
  assert (Q : forall l, existsb (ptype_eqb t) l = true <-> In t l). { intros l. rewrite existsb_exists. split; [intros (x & IX & P); apply peq_eq in P; subst; exact IX|intros I; exists t; split; [exact I|apply peq_refl]]. }
  destruct (existsb (ptype_eqb t) (a :: ts)) eqn:E1, (existsb (ptype_eqb t) (b :: ts')) eqn:E2; try reflexivity; exfalso.
  - apply Q, H, Q in E1. congruence.
  - apply Q, H, Q in E2. congruence.
Qed.
Lemma types_nil d ts : ts <> [] -> (forall t, In t ts <-> (interst d t <> None \/ vacs d t <> None \/ clus d t <> None)) -> types_to_process d [] = types_to_process d ts.
Proof.
  intros N H. destruct ts as [|a ts]; [congruence|]. unfold types_to_process. apply filter_ext. intros t.
  assert (Q : existsb (ptype_eqb t) (a :: ts) = true <-> In t (a :: ts)). { rewrite existsb_exists. split; [intros (x & IX & P); apply peq_eq in P; subst; exact IX|intros I; exists t; split; [exact I|apply peq_refl]]. }
  assert (P : present (interst d) t || present (vacs d) t || present (clus d) t = true <-> In t (a :: ts)). { rewrite H. unfold present. destruct (interst d t), (vacs d t), (clus d t); cbn; intuition congruence. }
  destruct (existsb (ptype_eqb t) (a :: ts)), (present (interst d) t || present (vacs d) t || present (clus d) t); try reflexivity; exfalso; intuition congruence.
Qed.
End X.

Local Open Scope R_scope.
(** ** displacement energies *)
Lemma zn z a b : litb a b (dofZ z) = true -> (Z.abs z < 2 ^ 53)%Z -> (0 < z)%Z -> bnd a b (dofZ z) /\ near 0 (dofZ z) (IZR z).
Proof. intros L A P. pose proof (lit_bnd _ _ _ L) as B. split; [exact B|]. pose proof (near_self _ _ _ B) as N. destruct (ofZ_ex z ltac:(lia)) as [_ R1]. rewrite R1 in N. exact N. Qed.
Definition base_ev (c : crystal) : Rdefinitions.R := match c_type c with FCC => 15 + 5 / 2 * R (c_const c) | BCC => 10 + 3 * R (c_const c) | DIAMOND => 20 + 4 * R (c_const c) end.
Lemma n52 : bnd 1 3 (dq 5 2) /\ near 0 (dq 5 2) (5 / 2).
Proof. split; [apply lit_bnd; vm_compute; reflexivity|]. assert (B : bnd 1 3 (dq 5 2)) by (apply lit_bnd; vm_compute; reflexivity). assert (H : R (dq 5 2) = 5 / 2). { assert (V : dq 5 2 = S754_finite false 5629499534213120 (-51)) by (vm_compute; reflexivity). rewrite V, fin_R. cbn [cond_Zopp]. change (b2 (-51)) with (/ IZR 2251799813685248). lra. } pose proof (near_self _ _ _ B) as N. rewrite H in N. exact N. Qed.
Lemma lattice_near c : bnd (-20) 20 (c_const c) -> bnd (-19) 25 (lattice_energy c) /\ near 2 (lattice_energy c) (base_ev c).
Proof.
  intros B. pose proof (near_self _ _ _ B) as N. unfold lattice_energy, base_ev.
  assert (G : forall a k va vk, bnd 3 5 a -> bnd 1 3 k -> near 0 a va -> near 0 k vk -> bnd (-19) 25 (dadd a (dmul k (c_const c))) /\ near 2 (dadd a (dmul k (c_const c))) (va + vk * R (c_const c))).
  { intros a k va vk Ba Bk Na Nk. destruct (near_mul 0 0 _ _ _ _ _ _ _ _ Bk B Nk N) as [BM NM]; try lia. destruct (near_add 1 _ _ _ _ _ _ _ (bnd_weak _ _ (-19) 24 _ Ba ltac:(lia) ltac:(lia)) (bnd_weak _ _ (-19) 24 _ BM ltac:(lia) ltac:(lia)) (near_weak _ 1 _ _ Na ltac:(lia)) NM) as [BA NA]; try lia. split; assumption. }
  destruct (c_type c).
  - destruct (zn 15 3 5) as [Z1 Z2]; [vm_compute; reflexivity|lia|lia|]. destruct n52. apply G; assumption.
  - destruct (zn 10 3 5) as [Z1 Z2]; [vm_compute; reflexivity|lia|lia|]. destruct (zn 3 1 3) as [Z3 Z4]; [vm_compute; reflexivity|lia|lia|]. apply G; assumption.
  - destruct (zn 20 3 5) as [Z1 Z2]; [vm_compute; reflexivity|lia|lia|]. destruct (zn 4 1 3) as [Z3 Z4]; [vm_compute; reflexivity|lia|lia|]. apply G; assumption.
Qed.
Definition type_share (t : ptype) : Rdefinitions.R := match t with Electron => 1 / 2 | Proton | HeavyIon => 3 / 2 | _ => 1 end.
Lemma displacement_ok c q t mass : bnd (-20) 20 (c_const c) -> masses q t = Some mass -> bnd (-200) 100 mass -> bnd (-100) 100 (hbar q) ->
  exists e, displacementEnergy c q t = Ret e /\ okd e /\ type_share t * base_ev c * (1 - / 1000000000) <= R e.
Proof.
  intros BC M BM BH. unfold displacementEnergy, getMass. rewrite M. cbn [obind]. eexists. split; [reflexivity|].
  assert (ZB : bnd (-300) 400 (zero_point (hbar q) mass (c_const c) (dofZ 300))) by (apply zp_bnd; [exact BH|exact BM|eapply bnd_weak; [exact BC|lia|lia]|right; apply lit_bnd; vm_compute; reflexivity]).
  destruct (lattice_near c BC) as [BL NL]. set (base := match t with Electron => _ | _ => _ end). set (zp := zero_point _ _ _ _) in *.
  assert (NB : bnd (-20) 26 base /\ near 4 base (type_share t * base_ev c)).
  { assert (B12 : bnd (-1) 0 (dq 1 2)) by (apply lit_bnd; vm_compute; reflexivity). assert (N12 : near 0 (dq 1 2) (1 / 2)) by (pose proof (near_self _ _ _ B12) as N; rewrite (proj2 half_R) in N; replace (1 / 2) with (/ 2) by lra; exact N).
    assert (B32 : bnd 0 1 (dq 3 2)) by (apply lit_bnd; vm_compute; reflexivity). assert (N32 : near 0 (dq 3 2) (3 / 2)) by (pose proof (near_self _ _ _ B32) as N; rewrite (proj2 l32) in N; exact N).
    assert (A0 : forall s, s = 1 -> bnd (-20) 26 (lattice_energy c) /\ near 4 (lattice_energy c) (s * base_ev c)) by (intros s ->; rewrite Rmult_1_l; split; [eapply bnd_weak; [exact BL|lia|lia]|eapply near_weak; [exact NL|lia]]).
    assert (A1 : bnd (-20) 26 (dmul (lattice_energy c) (dq 1 2)) /\ near 4 (dmul (lattice_energy c) (dq 1 2)) (1 / 2 * base_ev c)) by (destruct (near_mul 2 0 _ _ _ _ _ _ _ _ BL B12 NL N12) as [X1 X2]; try lia; split; [eapply bnd_weak; [exact X1|lia|lia]|rewrite Rmult_comm; eapply near_weak; [exact X2|lia]]).
    assert (A2 : bnd (-20) 26 (dmul (lattice_energy c) (dq 3 2)) /\ near 4 (dmul (lattice_energy c) (dq 3 2)) (3 / 2 * base_ev c)) by (destruct (near_mul 2 0 _ _ _ _ _ _ _ _ BL B32 NL N32) as [X1 X2]; try lia; split; [eapply bnd_weak; [exact X1|lia|lia]|rewrite Rmult_comm; eapply near_weak; [exact X2|lia]]).
    unfold base, type_share. destruct t; try exact A1; try exact A2; apply A0; reflexivity. }
  destruct NB as [BB1 [PB [NB _]]]. destruct (bnd_add (-20) 400 base zp (bnd_weak _ _ (-20) 400 _ BB1 ltac:(lia) ltac:(lia)) (proj1 ZB)) as [BA EA]; [split; [apply Rlt_le; exact (bnd_pos _ _ _ ZB)|apply ZB]|lia|lia|].
  split; [exact (proj1 BA)|]. rewrite EA. apply Rle_trans with (R base); [unfold u12 in NB; nra|]. rewrite <- (rnd_R 53 1024 base) at 1 by apply BB1. apply (rnd_le 53 1024). pose proof (bnd_pos _ _ _ ZB). lra.
Qed.
Lemma displacement_throw c q t : masses q t = None -> displacementEnergy c q t = Throw E_runtime_error.
Proof. intros M. unfold displacementEnergy, getMass. rewrite M. reflexivity. Qed.
(** ** cascades *)
Lemma zero_near f r : bnd (-10) 10 f -> bnd (-10) 10 r -> R (dmul (dmul d0 f) r) = 0 /\ okd (dmul (dmul d0 f) r).
Proof. intros Bf Br. destruct (mul_z _ _ _ Bf) as (_ & -> & _). destruct (mul_z _ _ _ Br) as (_ & -> & _). split; [reflexivity|apply z_ok]. Qed.
(** one region: n times the two fractions, up to rounding *)
Lemma region_near (n : Z) cnt f r vf vr : (n = 0%Z /\ cnt = d0) \/ ((0 < n)%Z /\ bnd 0 60 cnt /\ R cnt = IZR n) -> bnd (-10) 10 f -> bnd (-10) 10 r -> near 1 f vf -> near 1 r vr ->
  okd (dmul (dmul cnt f) r) /\ IZR n * (vf * vr) * (1 - 4 * u12) <= R (dmul (dmul cnt f) r) <= IZR n * (vf * vr) * (1 + 4 * u12).
Proof.
  intros [[-> ->]|(P & B & RC)] Bf Br Nf Nr.
  - destruct (zero_near f r Bf Br) as [-> O]. split; [exact O|]. lra.
  - pose proof (near_self _ _ _ B) as N. rewrite RC in N. destruct (near_mul 0 1 _ _ _ _ _ _ _ _ B Bf N Nf) as [B1 N1]; try lia. destruct (near_mul 2 1 _ _ _ _ _ _ _ _ B1 Br N1 Nr) as [B2 N2]; try lia. split; [exact (proj1 B2)|]. destruct N2 as [_ N2]. rewrite <- Rmult_assoc. exact N2.
Qed.
Ltac lit10 := apply lit_bnd; vm_compute; reflexivity.
Ltac litnear := match goal with |- near 1 ?x _ => let y := eval vm_compute in x in let H := fresh in assert (H : x = y) by (vm_compute; reflexivity); apply lit_near; [apply lit_bnd; vm_compute; reflexivity|]; rewrite H, fin_R; cbn [cond_Zopp]; unfold u12; match goal with |- context [bpow radix2 ?e] => let v := eval vm_compute in (2 ^ (- e))%Z in change (bpow radix2 e) with (/ IZR v) end; apply Rabs_le; lra end.
Lemma f4 : near 1 (dq 4 10) (4 / 10). Proof. litnear. Qed.
Lemma f2 : near 1 (dq 2 10) (2 / 10). Proof. litnear. Qed.
Lemma f6 : near 1 (dq 6 10) (6 / 10). Proof. litnear. Qed.
Lemma f3 : near 1 (dq 3 10) (3 / 10). Proof. litnear. Qed.
Lemma f1 : near 1 (dq 1 10) (1 / 10). Proof. litnear. Qed.
Lemma f7 : near 1 (dq 7 10) (7 / 10). Proof. litnear. Qed.
Lemma f14 : near 1 (dq 1 4) (1 / 4). Proof. litnear. Qed.
Lemma f05 : near 1 (dq 5 100) (5 / 100). Proof. litnear. Qed.
Lemma f12 : near 1 (dq 1 2) (1 / 2). Proof. litnear. Qed.
Lemma f8 : near 1 (dq 8 10) (8 / 10). Proof. litnear. Qed.
(** the documented shares of vacancies, interstitials and clusters *)
Definition share (t : ptype) : Rdefinitions.R * Rdefinitions.R * Rdefinitions.R :=
  match t with Electron => (7 / 10, 1 / 4, 5 / 100) | HeavyIon => (1 / 2, 2 / 10, 3 / 10) | _ => (6 / 10, 3 / 10, 1 / 10) end.
Lemma fractions_near t : let '(v, i, c) := fractions t in let '(rv, ri, rc) := share t in (bnd (-10) 10 v /\ near 1 v rv) /\ (bnd (-10) 10 i /\ near 1 i ri) /\ (bnd (-10) 10 c /\ near 1 c rc).
Proof. destruct t; cbn [fractions share]; (split; [|split]); (split; [lit10|]); first [exact f7|exact f14|exact f05|exact f12|exact f2|exact f3|exact f6|exact f1]. Qed.
Definition rsum (l : list sf) : Rdefinitions.R := fold_right (fun x s => R x + s) 0 l.
Lemma regions_sum (n : Z) cnt f vf r1 r2 r3 v1 v2 v3 : (0 <= n)%Z -> (n = 0%Z /\ cnt = d0) \/ ((0 < n)%Z /\ bnd 0 60 cnt /\ R cnt = IZR n) -> bnd (-10) 10 f -> near 1 f vf ->
  (bnd (-10) 10 r1 /\ near 1 r1 v1) -> (bnd (-10) 10 r2 /\ near 1 r2 v2) -> (bnd (-10) 10 r3 /\ near 1 r3 v3) -> v1 + v2 + v3 = 1 ->
  Forall (fun x => okd x /\ 0 <= R x) (regions cnt f r1 r2 r3) /\ Rabs (rsum (regions cnt f r1 r2 r3) - IZR n * vf) <= IZR n * vf * / 100000000000.
Proof.
  intros NN H Bf Nf [B1 N1] [B2 N2] [B3 N3] SUM. destruct (region_near n cnt f r1 vf v1 H Bf B1 Nf N1) as [O1 L1]. destruct (region_near n cnt f r2 vf v2 H Bf B2 Nf N2) as [O2 L2]. destruct (region_near n cnt f r3 vf v3 H Bf B3 Nf N3) as [O3 L3].
  destruct Nf as [Pf _]. destruct N1 as [P1 _]. destruct N2 as [P2 _]. destruct N3 as [P3 _]. apply IZR_le in NN. assert (Q : forall v, 0 < v -> 0 <= IZR n * (vf * v)) by (intros v Pv; apply Rmult_le_pos; [exact NN|apply Rlt_le, Rmult_lt_0_compat; assumption]).
  pose proof (Q _ P1) as Q1. pose proof (Q _ P2) as Q2. pose proof (Q _ P3) as Q3. unfold u12 in *. unfold regions. split.
  - clear -O1 O2 O3 L1 L2 L3 Q1 Q2 Q3. repeat (apply Forall_cons; [split; [assumption|lra]|]). apply Forall_nil.
  - cbn [rsum fold_right]. replace (IZR n * vf) with (IZR n * (vf * v1) + IZR n * (vf * v2) + IZR n * (vf * v3)) by (replace (IZR n * vf) with (IZR n * vf * 1) by ring; rewrite <- SUM; ring).
    set (a := IZR n * (vf * v1)) in *. set (b := IZR n * (vf * v2)) in *. set (c := IZR n * (vf * v3)) in *. apply Rabs_le. split; lra.
Qed.
Lemma cascade_count pka disp : bnd (-20) 20 pka -> bnd (-20) 20 disp -> exists n : Z, (0 <= n)%Z /\
  ((n = 0%Z /\ dfloor (ddiv (dmul (dq 8 10) pka) disp) = d0) \/ ((0 < n)%Z /\ bnd 0 60 (dfloor (ddiv (dmul (dq 8 10) pka) disp)) /\ R (dfloor (ddiv (dmul (dq 8 10) pka) disp)) = IZR n)) /\
  8 / 10 * (R pka / R disp) * (1 - 4 * u12) - 1 < IZR n <= 8 / 10 * (R pka / R disp) * (1 + 4 * u12).
Proof.
  intros BP BD. assert (B8 : bnd (-1) 0 (dq 8 10)) by lit10. pose proof (near_self _ _ _ BP) as NP. pose proof (near_self _ _ _ BD) as ND.
  destruct (near_mul 1 0 _ _ _ _ _ _ _ _ B8 BP f8 NP) as [B1 N1]; try lia. destruct (near_div 2 0 _ _ _ _ _ _ _ _ B1 BD N1 ND) as [B2 N2]; try lia. set (x := ddiv (dmul (dq 8 10) pka) disp) in *.
  destruct (dfloor_ok x (proj1 B2)) as [OF RF]. exists (Zfloor (R x)). pose proof (Zfloor_lb (R x)) as LB. pose proof (Zfloor_ub (R x)) as UB'. pose proof (bnd_pos _ _ _ B2) as PX.
  assert (NN : (0 <= Zfloor (R x))%Z) by (apply Zfloor_lub; simpl; lra). split; [exact NN|]. split.
  - destruct (Z.eq_dec (Zfloor (R x)) 0) as [Z0|NZ].
    + left. split; [exact Z0|]. rewrite Z0 in RF. destruct (bnd_shape _ _ _ B2) as (m & e & SX). rewrite SX in *. unfold dfloor in *. destruct (0 <=? e)%Z eqn:LE.
      * exfalso. rewrite fin_R in RF. cbn [cond_Zopp] in RF. pose proof (bpow_gt_0 radix2 e). assert (0 < IZR (Z.pos m)) by (apply IZR_lt; lia). nra.
      * cbn [cond_Zopp] in *. destruct (Z.pos m / 2 ^ (- e) =? 0)%Z eqn:QZ; [reflexivity|exfalso]. apply Z.eqb_neq in QZ. assert (DN : (0 <= Z.pos m / 2 ^ (- e))%Z) by (apply Z.div_pos; [lia|apply Z.pow_pos_nonneg; lia]).
        assert (MB : (Z.pos m / 2 ^ (- e) < 2 ^ 53)%Z). { apply Z.le_lt_trans with (Z.pos m); [apply Z.div_le_upper_bound; [apply Z.pow_pos_nonneg; lia|]; assert (1 <= 2 ^ (- e))%Z by (assert (0 < 2 ^ (- e))%Z by (apply Z.pow_pos_nonneg; lia); lia); nia|]. exact (mant_53 _ _ _ (proj1 (proj1 B2))). }
        destruct (ofZ_ex (Z.pos m / 2 ^ (- e)) ltac:(lia)) as [_ RZ]. rewrite RZ in RF. apply eq_IZR in RF. lia.
    + right. assert (P : (0 < Zfloor (R x))%Z) by lia. split; [exact P|]. split; [|exact RF]. split; [exact OF|]. rewrite RF. change (b2 0) with 1. split; [apply IZR_le; lia|]. apply Rle_trans with (1 := LB). apply Rle_trans with (1 := proj2 (proj2 B2)). apply bpow_le. lia.
  - destruct N2 as [_ N2]. change (2 + 0 + 2)%Z with 4%Z in N2. replace (8 / 10 * R pka / R disp) with (8 / 10 * (R pka / R disp)) in N2 by (unfold Rdiv; ring). lra.
Qed.
Lemma cascade_ok pka disp t : bnd (-20) 20 pka -> bnd (-20) 20 disp -> R disp < R pka -> exists (n : Z) i v c, (0 <= n)%Z /\
  8 / 10 * (R pka / R disp) * (1 - 4 * u12) - 1 < IZR n <= 8 / 10 * (R pka / R disp) * (1 + 4 * u12) /\
  interst (simulateCascade pka disp t) t = Some i /\ vacs (simulateCascade pka disp t) t = Some v /\ clus (simulateCascade pka disp t) t = Some c /\
  length i = 3%nat /\ length v = 3%nat /\ length c = 3%nat /\ Forall (fun x => okd x /\ 0 <= R x) (i ++ v ++ c) /\
  let '(rv, ri, rc) := share t in Rabs (rsum v - IZR n * rv) <= IZR n * rv * / 100000000000 /\ Rabs (rsum i - IZR n * ri) <= IZR n * ri * / 100000000000 /\ Rabs (rsum c - IZR n * rc) <= IZR n * rc * / 100000000000.
Proof.
  intros BP BD L. destruct (cascade_count pka disp BP BD) as (n & NN & H & CN). exists n.
  assert (LT : flt disp pka = true) by (apply (flt_d _ _ (proj1 BD) (proj1 BP)); exact L). unfold simulateCascade. rewrite LT. pose proof (fractions_near t) as FN. destruct (fractions t) as [[v i] c]. destruct (share t) as [[rv ri] rc]. destruct FN as ([Bv Nv] & [Bi Ni] & [Bc Nc]).
  set (cnt := dfloor _) in *. cbn [interst vacs clus]. rewrite !pset_same. do 3 eexists. split; [exact NN|]. split; [exact CN|]. split; [reflexivity|]. split; [reflexivity|]. split; [reflexivity|]. split; [reflexivity|]. split; [reflexivity|]. split; [reflexivity|].
  destruct (regions_sum n cnt v rv (dq 6 10) (dq 3 10) (dq 1 10) (6 / 10) (3 / 10) (1 / 10) NN H Bv Nv) as [F1 S1]; try (split; [lit10|]); try exact f6; try exact f3; try exact f1; [lra|].
  destruct (regions_sum n cnt i ri (dq 4 10) (dq 4 10) (dq 2 10) (4 / 10) (4 / 10) (2 / 10) NN H Bi Ni) as [F2 S2]; try (split; [lit10|]); try exact f4; try exact f2; [lra|].
  destruct (regions_sum n cnt c rc (dq 7 10) (dq 2 10) (dq 1 10) (7 / 10) (2 / 10) (1 / 10) NN H Bc Nc) as [F3 S3]; try (split; [lit10|]); try exact f7; try exact f2; try exact f1; [lra|].
  split; [apply Forall_app; split; [exact F2|apply Forall_app; split; [exact F1|exact F3]]|]. split; [exact S1|]. split; [exact S2|exact S3].
Qed.
