(** Reliability scores. *)
From Coq Require Import String List NArith ZArith Bool Reals SpecFloat Lia Lra.
Import ListNotations.
From Flocq Require Import Core.
From Flocq.IEEE754 Require Import BinarySingleNaN.
From Verif Require Import Outcome Words Floats FloatsR FloatsS HealthFloat Bits_Model PNN_Model RMA3_Proofs Hw_Model Hw_Spec.
Local Open Scope R_scope.

(** ** doubles with infinities as real numbers *)
Lemma BB_sig : {b : Rdefinitions.R | b = bpow radix2 1024}.
Proof. exists (bpow radix2 1024). reflexivity. Qed.
Definition BB : Rdefinitions.R := proj1_sig BB_sig.
Lemma BB_eq : BB = bpow radix2 1024. Proof. exact (proj2_sig BB_sig). Qed.
Definition E (x : sf) : Rdefinitions.R := match x with S754_infinity true => - BB | S754_infinity false => BB | _ => R x end.
Definition dbl (x : sf) : Prop := V64 x = true /\ x <> S754_nan.
Definition clampB (t : Rdefinitions.R) : Rdefinitions.R := Rmax (- BB) (Rmin BB t).
Lemma BB_pos : 1000000 <= BB.
Proof. rewrite BB_eq. apply Rle_trans with (bpow radix2 20). { change (bpow radix2 20) with 1048576. lra. } apply bpow_le. lia. Qed.
Lemma clampB_mono s t : s <= t -> clampB s <= clampB t.
Proof. intros H. unfold clampB. apply Rle_max_compat_l, Rle_min_compat_l, H. Qed.
Lemma okd_dbl x : okd x -> dbl x.
Proof. intros [V F]. split; [exact V|]. intros ->. discriminate F. Qed.
Lemma E_fin x : fin x = true -> E x = R x.
Proof. destruct x as [s|[]| |s m e]; try reflexivity; discriminate. Qed.
Lemma E_bound x : okd x -> - BB < E x < BB.
Proof. intros [V F]. rewrite (E_fin _ F). pose proof (fin_bound 53 1024 x V) as H. apply Rabs_def2 in H. rewrite BB_eq. lra. Qed.
Lemma leE x y : dbl x -> dbl y -> (fle x y = true <-> E x <= E y).
Proof.
  intros [Vx Nx] [Vy Ny]. pose proof BB_pos as P.
  destruct (fin x) eqn:Fx, (fin y) eqn:Fy.
  - rewrite !E_fin by assumption. apply fle_d; split; assumption.
  - pose proof (E_bound x (conj Vx Fx)) as B. destruct y as [s|[]| |s m e]; try discriminate Fy; try congruence; cbn [E].
    + split; [|lra]. destruct x as [[]|[]| |[] m e]; try discriminate Fx; cbn; discriminate.
    + split; [lra|]. intros _. destruct x as [[]|[]| |[] m e]; try discriminate Fx; reflexivity.
  - pose proof (E_bound y (conj Vy Fy)) as B. destruct x as [s|[]| |s m e]; try discriminate Fx; try congruence; cbn [E].
    + split; [lra|]. intros _. destruct y as [[]|[]| |[] m e]; try discriminate Fy; reflexivity.
    + split; [|lra]. destruct y as [[]|[]| |[] m e]; try discriminate Fy; cbn; discriminate.
  - destruct x as [s|[]| |s m e]; try discriminate Fx; try congruence; destruct y as [s'|[]| |s' m' e']; try discriminate Fy; try congruence; cbn [E]; cbn; split; intros; try reflexivity; try discriminate; lra.
Qed.
Lemma ltE x y : dbl x -> dbl y -> (flt x y = true <-> E x < E y).
Proof.
  intros Hx Hy. pose proof (leE y x Hy Hx) as L. assert (T : flt x y = negb (fle y x)).
  { destruct Hx as [Vx Nx], Hy as [Vy Ny]. unfold flt, fle, SFltb, SFleb. clear L.
    assert (C : SFcompare y x = match SFcompare x y with Some c => Some (CompOpp c) | None => None end).
    { pose proof (Bcompare_swap 53 1024 (lift 53 1024 x Vx) (lift 53 1024 y Vy)) as C. unfold Bcompare in C. rewrite !lift_sf in C. exact C. }
    rewrite C. destruct (SFcompare x y) as [[]|] eqn:K; try reflexivity. destruct x as [[]|[]| |[] m e]; destruct y as [[]|[]| |[] m' e']; try congruence; cbn in K; discriminate K. }
  rewrite T. destruct (fle y x); split; intros; try discriminate; try reflexivity.
  - pose proof (proj1 L eq_refl). lra.
  - apply Rnot_le_lt. intros K. apply L in K. discriminate.
Qed.
Lemma mulE x y : okd x -> okd y -> dbl (dmul x y) /\ E (dmul x y) = clampB (rnd64 (R x * R y)).
Proof.
  intros [Vx Fx] [Vy Fy]. destruct (Rlt_or_le (Rabs (rnd64 (R x * R y))) BB) as [L|G].
  - destruct (mul_R 53 1024 x y Vx Vy Fx Fy ltac:(rewrite <- BB_eq; exact L)) as (A & B & C). split; [apply okd_dbl; split; assumption|]. unfold dmul. rewrite (E_fin _ B), A. apply Rabs_def2 in L. unfold clampB. rewrite Rmin_right, Rmax_right by lra. reflexivity.
  - pose proof (Bmult_correct 53 1024 _ _ mode_NE (lift 53 1024 x Vx) (lift 53 1024 y Vy)) as H. rewrite !lift_R in H. rewrite <- BB_eq in H. rewrite Rlt_bool_false in H by exact G.
    pose proof (mul_equiv 53 1024 (lift 53 1024 x Vx) (lift 53 1024 y Vy)) as Q. rewrite !lift_sf in Q. unfold dmul. rewrite Q, H. unfold binary_overflow. cbn [overflow_to_inf].
    assert (S1 : forall z (Vz : V64 z = true), fin z = true -> R z <> 0 -> (Bsign (lift 53 1024 z Vz) = true /\ R z < 0) \/ (Bsign (lift 53 1024 z Vz) = false /\ 0 < R z)).
    { intros z Vz Fz Nz. destruct z as [s|s| |s m e]; try discriminate Fz; [exfalso; apply Nz; reflexivity|]. cbn [lift SF2B Bsign]. unfold R, SF2R, F2R. cbn [Fnum Fexp]. pose proof (bpow_gt_0 radix2 e).
      assert (PM : 0 < IZR (Z.pos m)) by (apply IZR_lt; lia). destruct s; [left|right]; (split; [reflexivity|]); cbn [cond_Zopp]; try rewrite opp_IZR; nra. }
    assert (NZ : R x * R y <> 0). { intros Z. rewrite Z in G. unfold rnd in G. rewrite round_0 in G by apply valid_rnd_N. rewrite Rabs_R0 in G. pose proof BB_pos. lra. }
    assert (Nx : R x <> 0) by (intros Z; apply NZ; rewrite Z; ring). assert (Ny : R y <> 0) by (intros Z; apply NZ; rewrite Z; ring).
    pose proof BB_pos as P. assert (Z0 : rnd64 0 = 0) by (unfold rnd; apply round_0; apply valid_rnd_N).
    destruct (S1 x Vx Fx Nx) as [[Sx Px]|[Sx Px]]; destruct (S1 y Vy Fy Ny) as [[Sy Py]|[Sy Py]]; rewrite Sx, Sy; cbn [xorb]; (split; [split; [reflexivity|discriminate]|]); cbn [E].
    + assert (K : 0 <= R x * R y) by nra. apply (rnd_le 53 1024) in K. rewrite Z0 in K. rewrite Rabs_pos_eq in G by exact K. unfold clampB. rewrite Rmin_left, Rmax_right by lra. reflexivity.
    + assert (K : R x * R y <= 0) by nra. apply (rnd_le 53 1024) in K. rewrite Z0 in K. rewrite Rabs_left1 in G by exact K. unfold clampB. rewrite Rmin_right, Rmax_left by lra. reflexivity.
    + assert (K : R x * R y <= 0) by nra. apply (rnd_le 53 1024) in K. rewrite Z0 in K. rewrite Rabs_left1 in G by exact K. unfold clampB. rewrite Rmin_right, Rmax_left by lra. reflexivity.
    + assert (K : 0 <= R x * R y) by nra. apply (rnd_le 53 1024) in K. rewrite Z0 in K. rewrite Rabs_pos_eq in G by exact K. unfold clampB. rewrite Rmin_left, Rmax_right by lra. reflexivity.
Qed.

(** ** the parts of the score *)
Definition cap : sf := dlit 999 1000.
Lemma cap_ok : okd cap /\ 998 / 1000 < R cap < 1.
Proof.
  assert (Q : cap = ltac:(let x := eval vm_compute in cap in exact x)) by (vm_compute; reflexivity). rewrite Q. split; [split; reflexivity|]. lit_R.
Qed.
Lemma m10_ok : okd (dofZ (-10)) /\ R (dofZ (-10)) = -10.
Proof. apply (ofZ_ex (-10)). lia. Qed.
Lemma rate_mono a b : dbl a -> dbl b -> fle a b = true -> dbl (dmul (dofZ (-10)) a) /\ dbl (dmul (dofZ (-10)) b) /\ fle (dmul (dofZ (-10)) b) (dmul (dofZ (-10)) a) = true.
Proof.
  intros Ha Hb L. destruct m10_ok as [O E10]. pose proof BB_pos as P.
  assert (Q : forall z, dbl z -> dbl (dmul (dofZ (-10)) z) /\ E (dmul (dofZ (-10)) z) = match z with S754_infinity _ => - E z | _ => clampB (rnd64 (-10 * E z)) end).
  { intros z [Vz Nz]. destruct (fin z) eqn:Fz.
    - destruct (mulE (dofZ (-10)) z O (conj Vz Fz)) as [A B]. split; [exact A|]. rewrite B, E10, (E_fin _ Fz). destruct z; try discriminate Fz; reflexivity.
    - destruct z as [s|[]| |s m e]; try discriminate Fz; try congruence.
      + assert (K : dmul (dofZ (-10)) (S754_infinity true) = S754_infinity false) by (vm_compute; reflexivity). rewrite K. split; [split; [reflexivity|discriminate]|]. cbn [E]. lra.
      + assert (K : dmul (dofZ (-10)) (S754_infinity false) = S754_infinity true) by (vm_compute; reflexivity). rewrite K. split; [split; [reflexivity|discriminate]|]. cbn [E]. lra. }
  destruct (Q a Ha) as [Da Ea]. destruct (Q b Hb) as [Db Eb]. split; [exact Da|]. split; [exact Db|]. apply (leE _ _ Db Da). rewrite Ea, Eb. apply (leE _ _ Ha Hb) in L.
  assert (CB : forall t, - BB <= clampB t <= BB). { intros t. unfold clampB. split; [apply Rmax_l|]. apply Rmax_lub; [lra|apply Rmin_l]. }
  destruct (fin a) eqn:Fa, (fin b) eqn:Fb.
  - assert (K : clampB (rnd64 (-10 * E b)) <= clampB (rnd64 (-10 * E a))). { apply clampB_mono, (rnd_le 53 1024). lra. }
    destruct a, b; try discriminate Fa; try discriminate Fb; exact K.
  - pose proof (E_bound a (conj (proj1 Ha) Fa)). destruct Hb as [_ Nb]. destruct b as [s|[]| |s m e]; try discriminate Fb; try congruence; cbn [E] in L |- *; [lra|].
    destruct a; try discriminate Fa; apply CB.
  - pose proof (E_bound b (conj (proj1 Hb) Fb)). destruct Ha as [_ Na]. destruct a as [s|[]| |s m e]; try discriminate Fa; try congruence; cbn [E] in L |- *; [|lra].
    destruct b; try discriminate Fb; rewrite Ropp_involutive; apply CB.
  - destruct Ha as [_ Na], Hb as [_ Nb]. destruct a as [s|[]| |s m e]; try discriminate Fa; try congruence; destruct b as [s'|[]| |s' m' e']; try discriminate Fb; try congruence; cbn [E] in *; lra.
Qed.

(** the score of a base value between 1/2 and 2 under an environment factor that is not negative *)
Definition score (b e : sf) : sf := fmin cap (dmul b e).
Definition nonneg (e : sf) : Prop := dbl e /\ 0 <= E e.
Lemma fminE a b : dbl a -> dbl b -> dbl (fmin a b) /\ E (fmin a b) = Rmin (E a) (E b).
Proof.
  intros Ha Hb. unfold fmin. destruct (flt b a) eqn:K.
  - split; [exact Hb|]. apply (ltE _ _ Hb Ha) in K. rewrite Rmin_right by lra. reflexivity.
  - split; [exact Ha|]. assert (~ E b < E a) by (intros Q; apply (ltE _ _ Hb Ha) in Q; congruence). rewrite Rmin_left by lra. reflexivity.
Qed.
Lemma score_val b e : okd b -> 1 / 2 <= R b <= 2 -> nonneg e ->
  okd (score b e) /\ R (score b e) = Rmin (R cap) (match e with S754_infinity _ => BB | _ => clampB (rnd64 (R b * E e)) end) /\ 0 <= R (score b e).
Proof.
  intros Ob Bb [De Pe]. destruct cap_ok as [Oc Bc]. pose proof BB_pos as P.
  assert (Q : dbl (dmul b e) /\ E (dmul b e) = match e with S754_infinity _ => BB | _ => clampB (rnd64 (R b * E e)) end).
  { destruct (fin e) eqn:Fe.
    - destruct (mulE b e Ob (conj (proj1 De) Fe)) as [A B]. split; [exact A|]. rewrite B, (E_fin _ Fe). destruct e; try discriminate Fe; reflexivity.
    - destruct De as [Ve Ne]. destruct e as [s|[]| |s m x]; try discriminate Fe; try congruence; cbn [E] in Pe; [lra|].
      assert (S1 : b = S754_zero false \/ b = S754_zero true \/ (exists m x, b = S754_finite false m x) \/ R b < 0).
      { destruct Ob as [_ Fb]. destruct b as [[]|s| |[] m x]; try discriminate Fb; auto; [|right; right; left; eauto].
        right. right. right. unfold R, SF2R, F2R. cbn [Fnum Fexp cond_Zopp]. pose proof (bpow_gt_0 radix2 x). assert (0 < IZR (Z.pos m)) by (apply IZR_lt; lia). rewrite opp_IZR. nra. }
      destruct S1 as [->|[->|[(m & x & ->)|N]]]; try (exfalso; change (R (S754_zero _)) with 0 in Bb; lra); try (exfalso; lra).
      split; [split; [reflexivity|discriminate]|reflexivity]. }
  destruct Q as [Dm Em]. destruct (fminE cap (dmul b e) (okd_dbl _ Oc) Dm) as [D K]. fold (score b e) in D, K. rewrite Em, (E_fin _ (proj2 Oc)) in K.
  set (v := match e with S754_infinity _ => BB | _ => clampB (rnd64 (R b * E e)) end) in *.
  assert (Vv : 0 <= v).
  { assert (C0 : 0 <= clampB (rnd64 (R b * E e))).
    { assert (N0 : 0 <= rnd64 (R b * E e)). { assert (Z0 : rnd64 0 = 0) by (unfold rnd; apply round_0; apply valid_rnd_N). rewrite <- Z0. apply (rnd_le 53 1024). nra. }
      unfold clampB. apply Rle_trans with (2 := Rmax_r _ _). apply Rmin_glb; lra. }
    unfold v. destruct e; try exact C0. lra. }
  assert (Fs : fin (score b e) = true).
  { destruct (fin (score b e)) eqn:F; [reflexivity|]. exfalso. pose proof (Rmin_l (R cap) v) as M1. assert (M2 : 0 <= Rmin (R cap) v) by (apply Rmin_glb; lra). rewrite <- K in M1, M2.
    destruct D as [_ N]. destruct (score b e) as [s|[]| |s m x]; try discriminate F; try congruence; cbn [E] in M1, M2; lra. }
  split; [split; [apply D|exact Fs]|]. rewrite (E_fin _ Fs) in K. split; [exact K|]. rewrite K. apply Rmin_glb; lra.
Qed.
Lemma score_nan b : score b S754_nan = cap.
Proof. unfold score, fmin. destruct b as [[]|[]| |[] m e]; reflexivity. Qed.
Lemma score_base b d e : okd b -> okd d -> 1 / 2 <= R b -> R b <= R d -> R d <= 2 -> nonneg e -> R (score b e) <= R (score d e).
Proof.
  intros Ob Od L M U Ne. destruct (score_val b e Ob ltac:(lra) Ne) as (_ & -> & _). destruct (score_val d e Od ltac:(lra) Ne) as (_ & -> & _).
  apply Rle_min_compat_l. destruct Ne as [_ P]. assert (K : clampB (rnd64 (R b * E e)) <= clampB (rnd64 (R d * E e))). { apply clampB_mono, (rnd_le 53 1024). nra. }
  destruct e; try exact K. lra.
Qed.
Lemma clampB_le t : clampB t <= BB.
Proof. unfold clampB. pose proof BB_pos. apply Rmax_lub; [lra|apply Rmin_l]. Qed.
Lemma score_env b e f : okd b -> 1 / 2 <= R b <= 2 -> nonneg e -> nonneg f -> E e <= E f -> R (score b e) <= R (score b f).
Proof.
  intros Ob Bb Ne Nf L. destruct (score_val b e Ob Bb Ne) as (_ & -> & _). destruct (score_val b f Ob Bb Nf) as (_ & -> & _).
  apply Rle_min_compat_l. assert (K : clampB (rnd64 (R b * E e)) <= clampB (rnd64 (R b * E f))). { apply clampB_mono, (rnd_le 53 1024). nra. }
  destruct (fin f) eqn:Ff.
  - assert (Fe : fin e = true). { destruct (fin e) eqn:Fe; [reflexivity|]. exfalso. pose proof (E_bound f (conj (proj1 (proj1 Nf)) Ff)). destruct Ne as [[_ N] P]. pose proof BB_pos. destruct e as [s|[]| |s m x]; try discriminate Fe; try congruence; cbn [E] in *; lra. }
    destruct e, f; try discriminate Fe; try discriminate Ff; exact K.
  - destruct Nf as [[_ N] P]. destruct f as [s|s| |s m x]; try discriminate Ff; try congruence. destruct e; try apply clampB_le. lra.
Qed.

(** ** base values *)
Definition base_of (t : atype) (e : bool) (m : htmr) (s : scrub) : sf := add_scrub t s (add_tmr m (add_ecc e (type_score t))).
Definition in_range (x : sf) : bool := valid_binary 53 1024 x && fin x && fle (dlit 85 100) x && fle x (dlit 11 10).
Lemma range_all t e m s : in_range (base_of t e m s) = true.
Proof. destruct t, e, m, s; vm_compute; reflexivity. Qed.
Lemma l85 : okd (dlit 85 100) /\ 1 / 2 <= R (dlit 85 100) /\ 84 / 100 <= R (dlit 85 100).
Proof. assert (Q : dlit 85 100 = ltac:(let x := eval vm_compute in (dlit 85 100) in exact x)) by (vm_compute; reflexivity). rewrite Q. split; [split; reflexivity|]. lit_R. Qed.
Lemma l11 : okd (dlit 11 10) /\ R (dlit 11 10) <= 2.
Proof. assert (Q : dlit 11 10 = ltac:(let x := eval vm_compute in (dlit 11 10) in exact x)) by (vm_compute; reflexivity). rewrite Q. split; [split; reflexivity|]. lit_R. Qed.
Lemma base_ok c : okd (base_reliability c) /\ R (dlit 85 100) <= R (base_reliability c) <= R (dlit 11 10).
Proof.
  pose proof (range_all (a_type c) (a_ecc c) (a_tmr c) (a_scrub c)) as H. unfold in_range in H. fold (base_of (a_type c) (a_ecc c) (a_tmr c) (a_scrub c)). change (base_reliability c) with (base_of (a_type c) (a_ecc c) (a_tmr c) (a_scrub c)).
  apply andb_prop in H as [H H4]. apply andb_prop in H as [H H3]. apply andb_prop in H as [H1 H2]. destruct l85 as [O85 _], l11 as [O11 _].
  assert (Ob : okd (base_of (a_type c) (a_ecc c) (a_tmr c) (a_scrub c))) by (split; assumption). split; [exact Ob|]. apply (fle_d _ _ O85 Ob) in H3. apply (fle_d _ _ Ob O11) in H4. lra.
Qed.
Lemma base_ok2 c : okd (base_reliability c) /\ 1 / 2 <= R (base_reliability c) <= 2.
Proof. destruct (base_ok c) as [O B]. destruct l85 as (_ & L & _), l11 as [_ U]. split; [exact O|lra]. Qed.
Definition le_b (e e' : bool) : bool := implb e e'.
Lemma base_mono_all t : forallb (fun e => forallb (fun e' => forallb (fun m => forallb (fun m' => forallb (fun s => forallb (fun s' =>
  implb (le_b e e' && (tmr_rank m <=? tmr_rank m')%nat && (scrub_rank s <=? scrub_rank s')%nat) (fle (base_of t e m s) (base_of t e' m' s')))
  [NO_SCRUB; PERIODIC; CONTINUOUS; TRIGGERED; ADAPTIVE]) [NO_SCRUB; PERIODIC; CONTINUOUS; TRIGGERED; ADAPTIVE])
  [NO_TMR; BLOCK_LEVEL; REGISTER_LEVEL; COMPLETE]) [NO_TMR; BLOCK_LEVEL; REGISTER_LEVEL; COMPLETE]) [true; false]) [true; false] = true.
Proof. destruct t; vm_cast_no_check (eq_refl true). Qed.
Lemma base_mono c d : at_least d c -> R (base_reliability c) <= R (base_reliability d).
Proof.
  intros (T & EC & TM & SC). pose proof (base_mono_all (a_type c)) as H.
  assert (IB : forall b : bool, In b [true; false]) by (intros []; cbn; auto).
  assert (IT : forall m, In m [NO_TMR; BLOCK_LEVEL; REGISTER_LEVEL; COMPLETE]) by (intros []; cbn; auto).
  assert (IS : forall m, In m [NO_SCRUB; PERIODIC; CONTINUOUS; TRIGGERED; ADAPTIVE]) by (intros []; cbn; auto 6).
  rewrite forallb_forall in H. specialize (H (a_ecc c) (IB _)). rewrite forallb_forall in H. specialize (H (a_ecc d) (IB _)). rewrite forallb_forall in H. specialize (H (a_tmr c) (IT _)).
  rewrite forallb_forall in H. specialize (H (a_tmr d) (IT _)). rewrite forallb_forall in H. specialize (H (a_scrub c) (IS _)). rewrite forallb_forall in H. specialize (H (a_scrub d) (IS _)).
  assert (L : le_b (a_ecc c) (a_ecc d) = true) by (unfold le_b; destruct (a_ecc c); [rewrite (EC eq_refl)|]; reflexivity).
  rewrite L, (proj2 (Nat.leb_le _ _) TM), (proj2 (Nat.leb_le _ _) SC) in H. cbn [andb implb] in H. rewrite <- T in H at 2.
  change (base_of (a_type c) (a_ecc c) (a_tmr c) (a_scrub c)) with (base_reliability c) in H. change (base_of (a_type d) (a_ecc d) (a_tmr d) (a_scrub d)) with (base_reliability d) in H.
  apply fle_d in H; [exact H|apply base_ok|apply base_ok].
Qed.

(** ** calculate_reliability *)
Section Exp.
Variable f : sf -> sf.
Hypothesis Xok : exp_ok f.
Lemma env_nonneg seu : dbl seu -> nonneg (env_factor f seu).
Proof.
  intros D. destruct (rate_mono seu seu D D) as (Dm & _ & _). { apply leE; try assumption. lra. }
  destruct Xok as [X _]. destruct Dm as [V N]. destruct (X _ V N) as [V' L]. unfold env_factor.
  assert (D' : dbl (f (dmul (dofZ (-10)) seu))). { split; [exact V'|]. intros K. rewrite K in L. discriminate L. }
  split; [exact D'|]. apply (leE (S754_zero false) _) in L; [exact L|split; [reflexivity|discriminate]|exact D'].
Qed.
Lemma env_nan : env_factor f S754_nan = S754_nan.
Proof. unfold env_factor. replace (dmul (dofZ (-10)) S754_nan) with S754_nan by (vm_compute; reflexivity). apply Xok. Qed.
Lemma rel_score a seu : calculate_reliability f a seu = score (base_reliability (cfg a)) (env_factor f seu).
Proof. reflexivity. Qed.
Lemma rel_nan a : calculate_reliability f a S754_nan = cap.
Proof. rewrite rel_score, env_nan. apply score_nan. Qed.
Lemma rel_range a seu : is_double seu -> inr 0 (R cap) (calculate_reliability f a seu).
Proof.
  intros V. destruct (base_ok2 (cfg a)) as [Ob Bb]. destruct cap_ok as [Oc Bc]. destruct seu as [s|s| |s m e] eqn:Q; [| |rewrite rel_nan; split; [exact Oc|lra]|]; rewrite <- Q in *; (assert (D : dbl seu) by (split; [exact V|rewrite Q; discriminate])); rewrite rel_score;
  destruct (score_val _ _ Ob Bb (env_nonneg _ D)) as (O & K & P); (split; [exact O|]); (split; [exact P|]); rewrite K; apply Rmin_l.
Qed.
Lemma rel_mono a s t : exp_mono f -> is_double s -> is_double t -> fle s t = true -> R (calculate_reliability f a t) <= R (calculate_reliability f a s).
Proof.
  intros M Vs Vt L. destruct (base_ok2 (cfg a)) as [Ob Bb].
  assert (Ds : dbl s) by (split; [exact Vs|intros ->; discriminate L]).
  assert (Dt : dbl t) by (split; [exact Vt|intros ->; destruct s as [[]|[]| |[] ? ?]; discriminate L]).
  destruct (rate_mono s t Ds Dt L) as (Ms & Mt & Lm). rewrite !rel_score. pose proof (env_nonneg s Ds) as Ns. pose proof (env_nonneg t Dt) as Nt. apply score_env; try assumption.
  apply (leE _ _ (proj1 Nt) (proj1 Ns)). apply M; [apply Mt|apply Ms|exact Lm].
Qed.
Lemma rel_protection a b seu : is_double seu -> at_least (cfg b) (cfg a) -> R (calculate_reliability f a seu) <= R (calculate_reliability f b seu).
Proof.
  intros V L. destruct (base_ok2 (cfg a)) as [Oa Ba]. destruct (base_ok2 (cfg b)) as [Ob Bb]. pose proof (base_mono _ _ L) as M.
  destruct seu as [s|s| |s m e] eqn:Q; [| |rewrite !rel_nan; lra|]; rewrite <- Q in *; (assert (D : dbl seu) by (split; [exact V|rewrite Q; discriminate])); rewrite !rel_score; apply score_base; try assumption; try lra; apply env_nonneg; exact D.
Qed.
End Exp.
