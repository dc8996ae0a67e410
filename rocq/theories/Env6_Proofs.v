(** The South Atlantic Anomaly and the flux of each mission. *)
From Coq Require Import List NArith ZArith Bool Arith Lia Reals Lra SpecFloat.
Import ListNotations.
From Flocq Require Import Core BinarySingleNaN.
From Verif Require Import Outcome Words Floats FloatsR HealthFloat RMA3_Proofs Tester3_Proofs Hw_Proofs Hw2_Proofs Qft_Model Qft_Spec Qft2_Proofs Qft4_Proofs Qft5_Proofs Qft6_Proofs Qer3_Proofs Env_Model EnvB_Spec Env3_Proofs Env4_Proofs Env5_Proofs.
Local Open Scope R_scope.

(** absolute rounding error below 2^20 *)
Lemma rnd_abs20 t : 0 <= t <= 1048576 -> t - / 100000000 <= rnd64 t <= t + / 100000000.
Proof.
  intros B. destruct (Rle_or_lt (/ 1048576) t) as [L|G].
  - pose proof (rnd_near t (small_normal t L)) as H. unfold u12 in H. lra.
  - pose proof (rnd64_abs t ltac:(lra)). lra.
Qed.
Lemma rnd_abs_s t : -1048576 <= t <= 1048576 -> t - / 100000000 <= rnd64 t <= t + / 100000000.
Proof. intros B. destruct (Rle_or_lt 0 t); [apply rnd_abs20; lra|]. pose proof (rnd_abs20 (- t) ltac:(lra)) as H0. rewrite rnd_opp in H0. lra. Qed.
Definition saa_dist (p : position) : sf := let dl := dsub (lat p) (dofZ (-30)) in let dn := dsub (lon p) (dofZ (-40)) in Qft_Model.sqrt_d (dadd (dmul dl dl) (dmul dn dn)).
Lemma saa_dist_ok p : between (-90) 90 (lat p) -> between (-360) 360 (lon p) -> okd (saa_dist p) /\ 0 <= R (saa_dist p) /\
  sqrt (saa_distance2 p) - / 100 <= R (saa_dist p) <= sqrt (saa_distance2 p) + / 100.
Proof.
  intros (Oa & Ba) (Oo & Bo). destruct (ofZ_ex (-30) ltac:(lia)) as (O30 & R30). destruct (ofZ_ex (-40) ltac:(lia)) as (O40 & R40).
  destruct (sub_d (lat p) (dofZ (-30)) Oa O30) as (Ol & Rl); [rewrite R30; unfold mid; lra|]. destruct (sub_d (lon p) (dofZ (-40)) Oo O40) as (On & Rn); [rewrite R40; unfold mid; lra|].
  rewrite R30 in Rl. rewrite R40 in Rn. pose proof (rnd_abs_s (R (lat p) - -30) ltac:(lra)) as El. pose proof (rnd_abs_s (R (lon p) - -40) ltac:(lra)) as En. rewrite <- Rl in El. rewrite <- Rn in En.
  unfold saa_dist. cbv zeta. set (dl := dsub (lat p) (dofZ (-30))) in *. set (dn := dsub (lon p) (dofZ (-40))) in *. clearbody dl dn.
  assert (Sl : 0 <= R dl * R dl <= 160000) by nra. assert (Sn : 0 <= R dn * R dn <= 170000) by nra.
  destruct (mul_d dl dl Ol Ol) as (Oll & Rll); [unfold mid; lra|]. destruct (mul_d dn dn On On) as (Onn & Rnn); [unfold mid; lra|].
  pose proof (rnd_abs_s (R dl * R dl) ltac:(lra)) as Ell. pose proof (rnd_abs_s (R dn * R dn) ltac:(lra)) as Enn. rewrite <- Rll in Ell. rewrite <- Rnn in Enn.
  assert (Pl : 0 <= R (dmul dl dl)) by (rewrite Rll; apply rnd_pos; lra). assert (Pn : 0 <= R (dmul dn dn)) by (rewrite Rnn; apply rnd_pos; lra).
  destruct (add_d (dmul dl dl) (dmul dn dn) Oll Onn) as (Os & Rs); [unfold mid; lra|]. pose proof (rnd_abs_s (R (dmul dl dl) + R (dmul dn dn)) ltac:(lra)) as Es. rewrite <- Rs in Es.
  assert (Ps : 0 <= R (dadd (dmul dl dl) (dmul dn dn))) by (rewrite Rs; apply rnd_pos; lra).
  destruct (Tester3_Proofs.sqrt_d _ Os Ps) as (Oq & Rq). unfold Qft_Model.sqrt_d. split; [exact Oq|]. set (s := R (dadd (dmul dl dl) (dmul dn dn))) in *.
  assert (Dl : Rabs (R dl * R dl - (R (lat p) + 30) * (R (lat p) + 30)) <= / 100000).
  { replace (R dl * R dl - (R (lat p) + 30) * (R (lat p) + 30)) with ((R dl - (R (lat p) + 30)) * (R dl + (R (lat p) + 30))) by ring. rewrite Rabs_mult.
    assert (Rabs (R dl - (R (lat p) + 30)) <= / 100000000) by (apply Rabs_le; lra). assert (Rabs (R dl + (R (lat p) + 30)) <= 900) by (apply Rabs_le; lra).
    pose proof (Rabs_pos (R dl - (R (lat p) + 30))). pose proof (Rabs_pos (R dl + (R (lat p) + 30))). apply Rle_trans with (/ 100000000 * 900); [apply Rmult_le_compat; assumption|lra]. }
  assert (Dn : Rabs (R dn * R dn - (R (lon p) + 40) * (R (lon p) + 40)) <= / 100000).
  { replace (R dn * R dn - (R (lon p) + 40) * (R (lon p) + 40)) with ((R dn - (R (lon p) + 40)) * (R dn + (R (lon p) + 40))) by ring. rewrite Rabs_mult.
    assert (Rabs (R dn - (R (lon p) + 40)) <= / 100000000) by (apply Rabs_le; lra). assert (Rabs (R dn + (R (lon p) + 40)) <= 900) by (apply Rabs_le; lra).
    pose proof (Rabs_pos (R dn - (R (lon p) + 40))). pose proof (Rabs_pos (R dn + (R (lon p) + 40))). apply Rle_trans with (/ 100000000 * 900); [apply Rmult_le_compat; assumption|lra]. }
  apply Rabs_le_inv in Dl. apply Rabs_le_inv in Dn.
  assert (D0 : 0 <= saa_distance2 p) by (unfold saa_distance2; apply Rplus_le_le_0_compat; apply Rle_0_sqr).
  assert (D : Rabs (s - saa_distance2 p) <= / 40000) by (unfold saa_distance2; apply Rabs_le; lra). apply Rabs_le_inv in D.
  assert (S4 : sqrt (/ 40000) = / 200). { replace (/ 40000) with (/ 200 * / 200) by lra. apply sqrt_square. lra. }
  assert (SQ : forall a b, 0 <= a -> 0 <= b -> sqrt (a + b) <= sqrt a + sqrt b).
  { intros a b Ha Hb. pose proof (sqrt_pos a). pose proof (sqrt_pos b). apply Rsqr_incr_0_var; [|lra]. unfold Rsqr. rewrite sqrt_sqrt by lra. pose proof (sqrt_sqrt a Ha) as Qa. pose proof (sqrt_sqrt b Hb) as Qb. assert (0 <= sqrt a * sqrt b) by (apply Rmult_le_pos; assumption). lra. }
  assert (U1 : sqrt s <= sqrt (saa_distance2 p) + / 200) by (rewrite <- S4; eapply Rle_trans; [|apply SQ; lra]; apply sqrt_le_1_alt; lra).
  assert (U2 : sqrt (saa_distance2 p) <= sqrt s + / 200) by (rewrite <- S4; eapply Rle_trans; [|apply SQ; lra]; apply sqrt_le_1_alt; lra).
  assert (SB : 0 <= sqrt s <= 1000). { split; [apply sqrt_pos|]. replace 1000 with (sqrt (1000 * 1000)) by (apply sqrt_square; lra). apply sqrt_le_1_alt. lra. }
  pose proof (rnd_abs_s (sqrt s) ltac:(lra)) as Eq. rewrite Rq. split; [apply rnd_pos; lra|lra].
Qed.
Section X.
Variable fexp : sf -> sf.
Hypothesis X : exp_lib fexp.
Lemma saa_eq p : saa_model fexp p = if flt (dofZ 20) (saa_dist p) then flux0 else
  let i := fexp (ddiv (dmul (SFopp (saa_dist p)) (saa_dist p)) (dmul (dmul (dofZ 2) (dofZ 10)) (dofZ 10))) in mkFlux (dmul (dofZ 10000) i) (dmul (dofZ 1000000) i) (dmul (dofZ 100) i) (dmul (dq 1 10) i).
Proof. reflexivity. Qed.
Lemma d20 : okd (dofZ 20) /\ R (dofZ 20) = 20. Proof. apply (ofZ_ex 20). lia. Qed.
Lemma saa_outside p : between (-90) 90 (lat p) -> between (-360) 360 (lon p) -> 20 + / 100 < sqrt (saa_distance2 p) -> saa_model fexp p = flux0.
Proof.
  intros A B L. destruct (saa_dist_ok p A B) as (O & _ & G). destruct d20 as (O2 & R2). rewrite saa_eq. assert (T : flt (dofZ 20) (saa_dist p) = true) by (apply (flt_d _ _ O2 O); lra). rewrite T. reflexivity.
Qed.
Lemma nb0 k : nb k d0. Proof. split; [apply z_ok|]. rewrite (proj2 z_ok). pose proof (bpow_ge_0 radix2 k). lra. Qed.
Lemma saa_ok p : on_earth p -> fnb 14 20 7 (-3) (saa_model fexp p).
Proof.
  intros [A B _]. destruct (saa_dist_ok p A B) as (O & _ & _). rewrite saa_eq. destruct (flt (dofZ 20) (saa_dist p)); [exact (conj (nb0 _) (conj (nb0 _) (conj (nb0 _) (nb0 _))))|].
  assert (I : nb 0 (fexp (ddiv (dmul (SFopp (saa_dist p)) (saa_dist p)) (dmul (dmul (dofZ 2) (dofZ 10)) (dofZ 10))))).
  { eapply inr_nb; [apply (neg_exp fexp X); apply (neg_div _ _ 5 10); [apply square_neg, okd_dbl; exact O|lbd]|lra|change (b2 0) with 1; lra]. }
  cbv zeta. set (i := fexp _) in *. clearbody i. assert (a : nb 14 (dofZ 10000)) by lnb 14%Z. assert (b : nb 20 (dofZ 1000000)) by lnb 20%Z. assert (c : nb 7 (dofZ 100)) by lnb 7%Z. assert (d : nb (-3) (dq 1 10)) by lnb (-3)%Z.
  unfold fnb. cbn [electron proton ion dose]. repeat split; try apply (nb_mul 14 0 _ _ a I ltac:(lia)); try apply (nb_mul 20 0 _ _ b I ltac:(lia)); try apply (nb_mul 7 0 _ _ c I ltac:(lia)); apply (nb_mul (-3) 0 _ _ d I ltac:(lia)).
Qed.
(** near the centre the anomaly is strong *)
Lemma saa_inside p : on_earth p -> sqrt (saa_distance2 p) <= 10 -> 490000 <= R (proton (saa_model fexp p)).
Proof.
  intros H L. destruct (saa_ok p H) as (_ & NP & _). destruct H as [A B _]. destruct (saa_dist_ok p A B) as (O & P & G). destruct d20 as (O2 & R2). revert NP. rewrite saa_eq. assert (T : flt (dofZ 20) (saa_dist p) = false) by (apply (flt_dF _ _ O2 O); lra). rewrite T.
  cbv zeta. cbn [proton]. intros NP. set (w := dmul (dmul (dofZ 2) (dofZ 10)) (dofZ 10)) in *. assert (W : bnd 5 10 w) by lbd. assert (RW : R w = 200). { replace w with (dofZ 200) by (vm_compute; reflexivity). apply (ofZ_ex 200). lia. }
  set (d := saa_dist p) in *. clearbody d. clearbody w. assert (Q : 0 <= R d * R d <= 101) by nra.
  destruct (mul_d (SFopp d) d (opp_okd _ O) O) as (Om & Rm); [rewrite opp_R; unfold mid; lra|]. rewrite opp_R in Rm. pose proof (rnd_abs_s (- R d * R d) ltac:(lra)) as Em. rewrite <- Rm in Em.
  destruct (div_d (dmul (SFopp d) d) w Om (proj1 W)) as (Od & Rd); [lra|rewrite RW; unfold mid; lra|]. rewrite RW in Rd. pose proof (rnd_abs_s (R (dmul (SFopp d) d) / 200) ltac:(lra)) as Ed. rewrite <- Rd in Ed.
  assert (NG : neg (ddiv (dmul (SFopp d) d) w)) by (apply (neg_div _ _ 5 10); [apply square_neg, okd_dbl; exact O|exact W]). pose proof NG as NG0. destruct NG as (_ & NG). rewrite E_fin in NG by apply Od.
  pose proof (exp_lin _ X _ Od ltac:(lra)) as EL. destruct (neg_exp fexp X _ NG0) as (Oi & Bi).
  set (i := fexp (ddiv (dmul (SFopp d) d) w)) in *. destruct (ofZ_ex 1000000 ltac:(lia)) as (Ok & Rk). destruct (mul_d (dofZ 1000000) i Ok Oi) as (Op & Rp); [rewrite Rk; unfold mid; lra|]. rewrite Rp, Rk. apply (Qft6_Proofs.rnd_int 490000 1000000); [lia|lia|lra].
Qed.

(** ** the flux of a mission *)
Variable fcos : sf -> sf.
Hypothesis C : unit_lib fcos.
Lemma fnb_weak a b c d a' b' c' d' f : fnb a b c d f -> (a <= a')%Z -> (b <= b')%Z -> (c <= c')%Z -> (d <= d')%Z -> fnb a' b' c' d' f.
Proof. intros (A & B & G & D) ? ? ? ?. split; [apply (nb_weak a)|split; [apply (nb_weak b)|split; [apply (nb_weak c)|apply (nb_weak d)]]]; assumption. Qed.
Lemma fnb_plus a b c d f g : fnb a b c d f -> fnb a b c d g -> (-1000 <= a < 900)%Z -> (-1000 <= b < 900)%Z -> (-1000 <= c < 900)%Z -> (-1000 <= d < 900)%Z -> fnb (a + 1) (b + 1) (c + 1) (d + 1) (fplus f g) /\ fR f (fplus f g).
Proof.
  intros (A & B & G & D) (A' & B' & G' & D') ? ? ? ?. unfold fnb, fR, fplus. cbn [electron proton ion dose]. split;
  [split; [apply (nb_add a)|split; [apply (nb_add b)|split; [apply (nb_add c)|apply (nb_add d)]]]|split; [apply (add_ge_l a)|split; [apply (add_ge_l b)|split; [apply (add_ge_l c)|apply (add_ge_l d)]]]]; try assumption; lia.
Qed.
Lemma fnb_scale a b c d j k f : fnb a b c d f -> nb j k -> (-900 <= a < 900)%Z -> (-900 <= b < 900)%Z -> (-900 <= c < 900)%Z -> (-900 <= d < 900)%Z -> (-20 <= j < 20)%Z -> fnb (a + j) (b + j) (c + j) (d + j) (fscale f k) /\ (1 <= R k -> fR f (fscale f k)).
Proof.
  intros (A & B & G & D) K ? ? ? ? ?. unfold fnb, fR, fscale. cbn [electron proton ion dose]. split;
  [split; [apply (nb_mul a j)|split; [apply (nb_mul b j)|split; [apply (nb_mul c j)|apply (nb_mul d j)]]]|intros L1; split; [apply (mul_ge_l a j)|split; [apply (mul_ge_l b j)|split; [apply (mul_ge_l c j)|apply (mul_ge_l d j)]]]]; try assumption; lia.
Qed.
Definition M22 (f : flux) : Prop := fnb 22 22 16 22 f.
Lemma mission_ok m p : on_earth p -> M22 (mission_flux fexp fcos m p).
Proof.
  intros H. pose proof (gcr_ok p H) as G. pose proof (va_ok fexp fcos X C p H) as V. pose proof (saa_ok p H) as S. unfold M22. destruct m; cbn [mission_flux].
  1, 2: (eapply fnb_weak; [apply (fnb_plus 18 20 9 0); [eapply fnb_weak; [apply (fnb_plus 17 17 8 (-3)); [eapply fnb_weak; [exact G|lia..]|exact V|lia..]|lia..]|eapply fnb_weak; [exact S|lia..]|lia..]|lia..]).
  - eapply fnb_weak; [apply (fnb_plus 19 19 10 0); [eapply fnb_weak; [exact G|lia..]|eapply fnb_weak; [apply (fnb_scale 17 17 8 (-3) 2); [exact V|lnb 2%Z|lia..]|lia..]|lia..]|lia..].
  - eapply fnb_weak; [exact G|lia..].
  - eapply fnb_weak; [apply (fnb_scale _ _ _ _ 1 _ _ G); [lnb 1%Z|lia..]|lia..].
  - eapply fnb_weak; [apply (fnb_scale _ _ _ _ 2 _ _ G); [lnb 2%Z|lia..]|lia..].
  - eapply fnb_weak; [apply (fnb_scale _ _ _ _ 10 _ _ G); [lnb 10%Z|lia..]|lia..].
  - assert (T : flt d1 (dq 3 10) = false) by (vm_compute; reflexivity). rewrite T. eapply fnb_weak; [exact G|lia..].
Qed.
End X.
