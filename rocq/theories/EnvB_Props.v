(** What a user of neural::RadiationEnvironment relies on (C410-C429). *)
From Coq Require Import List NArith ZArith Bool Arith Lia Reals Lra SpecFloat.
Import ListNotations.
From Flocq Require Import Core BinarySingleNaN.
From Verif Require Import Outcome Words Floats FloatsR HealthFloat RMA3_Proofs Tester3_Proofs Hw_Proofs Hw2_Proofs Qft_Model Qft_Spec Qft2_Proofs Qft4_Proofs Qft5_Proofs Qft6_Proofs Qer_Spec Qer_Proofs Qer3_Proofs Env_Model EnvB_Spec Env3_Proofs Env4_Proofs Env5_Proofs Env6_Proofs Env7_Proofs Env8_Proofs Env9_Proofs EnvA_Proofs.
Local Open Scope R_scope.

(** ** witnesses *)
Definition unity (x : sf) : sf := d1.
(** an exponential with three values, right at -1, -1/2 and 0 *)
Definition stair_exp (x : sf) : sf :=
  match x with S754_nan => S754_nan | _ => if fle x (dofZ (-1)) then dq 36 100 else if fle x (SFopp (dq 5 10)) then dq 6 10 else d1 end.
Definition geo_point : position := mkPos d0 d0 (dofZ 20000).
Definition anomaly_point : position := mkPos (dofZ (-30)) (dofZ (-40)) (dofZ 400).
Lemma unity_ok : unit_lib unity.
Proof. intros x _. split; [split; reflexivity|]. unfold unity. rewrite (proj2 o_ok). lra. Qed.
Lemma int_between lo hi k : (Z.abs k <= 1000000)%Z -> lo <= IZR k <= hi -> between lo hi (dofZ k).
Proof. intros K B. destruct (ofZ_ex k) as (O & Q); [lia|]. split; [exact O|]. rewrite Q. exact B. Qed.
Lemma geo_ok : on_earth geo_point.
Proof. split; [apply (int_between _ _ 0); [lia|lra]|apply (int_between _ _ 0); [lia|lra]|split; vm_compute; reflexivity]. Qed.
Lemma anomaly_ok : on_earth anomaly_point.
Proof. split; [apply (int_between _ _ (-30)); [lia|lra]|apply (int_between _ _ (-40)); [lia|lra]|split; vm_compute; reflexivity]. Qed.
Lemma stair_ok : exp_lib stair_exp.
Proof.
  assert (L : forall x, x <> S754_nan -> stair_exp x = dq 36 100 \/ stair_exp x = dq 6 10 \/ stair_exp x = d1).
  { intros x N. unfold stair_exp. destruct x; [| |congruence|]; destruct (fle _ (dofZ (-1))); auto; destruct (fle _ (SFopp (dq 5 10))); auto. }
  constructor.
  - reflexivity.
  - intros x D. assert (T : x = S754_nan \/ x <> S754_nan) by (destruct x; [right|right|left|right]; (discriminate || reflexivity)). destruct T as [T|N]; [rewrite T; reflexivity|]. destruct (L x N) as [Z1|[Z1|Z1]]; rewrite Z1; vm_compute; reflexivity.
  - intros x _ N. destruct (L x N) as [Z1|[Z1|Z1]]; rewrite Z1; vm_compute; reflexivity.
  - intros x _ N. assert (N' : x <> S754_nan) by (intros ->; discriminate N). destruct (L x N') as [Z1|[Z1|Z1]]; rewrite Z1; vm_compute; reflexivity.
  - intros x F B. assert (O : okd x) by exact F. destruct (ofZ_ex (-1) ltac:(lia)) as (O1 & Q1).
    assert (H6 : R (dq 6 10) >= / 2). { assert (Q : dq 6 10 = S754_finite false 5404319552844595 (-53)) by (vm_compute; reflexivity). rewrite Q, fin_R. cbn [cond_Zopp]. change (b2 (-53)) with (/ 9007199254740992). lra. }
    assert (H3 : R (dq 36 100) >= 0). { assert (Q : dq 36 100 = S754_finite false 6485183463413514 (-54)) by (vm_compute; reflexivity). rewrite Q, fin_R. cbn [cond_Zopp]. change (b2 (-54)) with (/ 18014398509481984). lra. }
    assert (H5 : okd (SFopp (dq 5 10)) /\ R (SFopp (dq 5 10)) = - / 2). { assert (Q : SFopp (dq 5 10) = S754_finite true 4503599627370496 (-53)) by (vm_compute; reflexivity). rewrite Q. split; [split; vm_compute; reflexivity|]. rewrite fin_R. cbn [cond_Zopp]. rewrite opp_IZR. change (b2 (-53)) with (/ 9007199254740992). lra. }
    unfold stair_exp. destruct (fle x (dofZ (-1))) eqn:A.
    + apply (fle_d _ _ O O1) in A. rewrite Q1 in A. destruct x; try lra; discriminate (proj2 F).
    + destruct (fle x (SFopp (dq 5 10))) eqn:A2.
      * apply (fle_d _ _ O (proj1 H5)) in A2. rewrite (proj2 H5) in A2. destruct x; try lra; discriminate (proj2 F).
      * destruct x; try (rewrite (proj2 o_ok); lra); discriminate (proj2 F).
Qed.

Theorem C410_flux_finite : forall fexp fcos g m cs p, exp_lib fexp -> unit_lib fcos -> Forall legal cs -> on_earth p ->
  flux_all (between 0 (bpow radix2 27)) (calculateRadiationFlux fexp fcos (made fexp g m cs) p).
Proof.
  intros fexp fcos g m cs p X C L H. destruct (flux_ok27 fexp fcos X C _ p (made_ok fexp X g m cs L) H) as (A & B & D & F). split; [exact A|]. split; [exact B|]. split; [exact (nb_weak 16 27 _ D ltac:(lia))|exact (nb_weak 23 27 _ F ltac:(lia))].
Qed.
Example C410_nonvacuous : exp_lib stair_exp /\ unit_lib unity /\ on_earth geo_point /\ Forall legal [RShield (dofZ 3) 1; RFlare d1; RSolar (S754_infinity false)] /\
  flt d1 (ion (calculateRadiationFlux stair_exp unity (made stair_exp 7 N_MARS [RShield (dofZ 3) 1; RFlare d1]) geo_point)) = true.
Proof.
  split; [exact stair_ok|]. split; [exact unity_ok|]. split; [exact geo_ok|]. split; [|vm_compute; reflexivity].
  constructor; [split; vm_compute; reflexivity|]. constructor; [split; vm_compute; reflexivity|]. constructor; [split; [reflexivity|discriminate]|constructor].
Qed.

Theorem C411_seu_probability : forall fexp fcos g m cs p, exp_lib fexp -> unit_lib fcos -> Forall legal cs -> on_earth p -> between 0 1 (calculateSEUProbability fexp fcos (made fexp g m cs) p).
Proof.
  intros fexp fcos g m cs p X C L H. exact (seu_ok _ (flux_ok27 fexp fcos X C _ p (made_ok fexp X g m cs L) H)).
Qed.
Example C411_nonvacuous : flt d0 (calculateSEUProbability stair_exp unity (made stair_exp 7 N_JUPITER [RFlare d1]) geo_point) = true.
Proof. vm_compute. reflexivity. Qed.

Theorem C412_activity : forall fexp g m cs, exp_lib fexp -> Forall legal cs -> let r := made fexp g m cs in
  between 0 1 (r_solar r) /\
  (forall a, between 0 1 a -> r_solar (rstep fexp r (RSolar a)) = a) /\
  (forall i, not_negative i -> R (r_solar r) <= R (r_solar (rstep fexp r (RFlare i))) <= 1) /\
  (forall i, between 0 1 i -> Rabs (R (r_solar (rstep fexp r (RFlare i))) - Rmin 1 (R (r_solar r) + R i / 2)) <= / 1000000000000).
Proof.
  intros fexp g m cs X L r. assert (A : act_ok r) by apply (made_ok fexp X g m cs L). split; [exact A|]. split; [|split].
  - intros a (F & B). cbn [rstep]. unfold setSolarActivity. cbn [r_solar]. destruct (clamp_gen a d0 d1 (okd_dbl _ F) (proj1 z_ok) (proj1 o_ok)) as (_ & _ & K); [rewrite (proj2 z_ok), (proj2 o_ok); lra|]. apply K; [exact F|]. rewrite (proj2 z_ok), (proj2 o_ok). exact B.
  - intros i N. apply nneg_not in N. destruct (flare_act (r_solar r) i A N) as (K & G & _). split; [exact G|apply K].
  - intros i (F & B). assert (N : nneg i). { split; [exact (okd_dbl _ F)|]. rewrite (E_fin i (proj2 F)). lra. } destruct (flare_act (r_solar r) i A N) as (_ & _ & Q). cbn [rstep]. unfold simulateSolarFlare. cbn [fst r_solar]. rewrite Q.
    assert (Ni : nb 0 i). { split; [exact F|]. change (b2 0) with 1. exact B. } assert (Na : nb 0 (r_solar r)). { split; [apply A|]. change (b2 0) with 1. apply A. }
    destruct (nb_mul 0 0 i (dq 5 10) Ni (proj1 half_nb) ltac:(lia)) as (N2 & R2). destruct (nb_add 0 (r_solar r) _ Na N2 ltac:(lia)) as (N3 & R3). rewrite (E_fin _ (proj2 (proj1 N3))). rewrite R3, R2.
    assert (H5 : R (dq 5 10) = / 2). { assert (Q5 : dq 5 10 = S754_finite false 4503599627370496 (-53)) by (vm_compute; reflexivity). rewrite Q5, fin_R. cbn [cond_Zopp]. change (b2 (-53)) with (/ 9007199254740992). lra. }
    rewrite H5. destruct A as (OA & BA). pose proof (rnd_abs16 (R i * / 2) ltac:(lra)) as E1. pose proof (proj2 N2) as N2b. rewrite R2, H5 in N2b. assert (E0 : 0 <= R (r_solar r) + rnd64 (R i * / 2) <= 16) by (split; lra). pose proof (rnd_abs16 _ E0) as E2. apply Rabs_le. unfold Rmin. destruct (Rle_dec 1 _), (Rle_dec 1 _); lra.
Qed.
Example C412_nonvacuous : r_solar (made stair_exp 0 GEO [RSolar (dofZ (-7)); RFlare (dq 5 10)]) = dq 25 100 /\ r_solar (made stair_exp 0 GEO [RFlare (dofZ 9)]) = d1.
Proof. split; vm_compute; reflexivity. Qed.

Lemma sub_nan x : dsub x S754_nan = S754_nan. Proof. destruct x; reflexivity. Qed.
Lemma mul_nan x : dmul x S754_nan = S754_nan. Proof. destruct x; reflexivity. Qed.
Lemma nan_mul x : dmul S754_nan x = S754_nan. Proof. destruct x; reflexivity. Qed.
Lemma add_nan x : dadd x S754_nan = S754_nan. Proof. destruct x; reflexivity. Qed.
(** a NaN activity makes every flux NaN, and the next flare turns it into the full activity; a negative intensity makes a flux negative *)
Theorem C413_illegal_refuted : (forall fexp fcos r p, flux_all (fun x => x = S754_nan) (calculateRadiationFlux fexp fcos (setSolarActivity r S754_nan) p)) /\
  (forall r i, r_solar (fst (simulateSolarFlare (setSolarActivity r S754_nan) i)) = d1) /\
  flt (electron (calculateRadiationFlux stair_exp unity (made stair_exp 0 GEO [RFlare (dofZ (-4))]) geo_point)) d0 = true.
Proof.
  split; [|split; [|vm_compute; reflexivity]].
  - intros fexp fcos r p. unfold calculateRadiationFlux, setSolarActivity. cbn [r_solar r_mission]. assert (Q : dclamp S754_nan d0 d1 = S754_nan) by (vm_compute; reflexivity). rewrite Q. set (f := mission_flux _ _ _ _). clearbody f.
    assert (G : dsub d1 (dmul (dq 3 10) S754_nan) = S754_nan) by (vm_compute; reflexivity). assert (S : dadd d1 (dmul (dofZ 10) S754_nan) = S754_nan) by (vm_compute; reflexivity).
    assert (A : applySolar S754_nan f = mkFlux S754_nan S754_nan S754_nan S754_nan). { unfold applySolar. rewrite G, S. cbv zeta. rewrite !mul_nan, nan_mul. reflexivity. }
    rewrite A. unfold applyShielding, flux_all. cbn [electron proton ion dose]. cbv zeta. rewrite !nan_mul. split; [reflexivity|]. split; [reflexivity|]. split; reflexivity.
  - intros r i. unfold simulateSolarFlare, setSolarActivity. cbn [fst r_solar]. assert (Q : dclamp S754_nan d0 d1 = S754_nan) by (vm_compute; reflexivity). rewrite Q. set (z := dmul i (dq 5 10)). clearbody z. assert (Q2 : dadd S754_nan z = S754_nan) by (destruct z; reflexivity). rewrite Q2. reflexivity.
Qed.
Theorem C413_recovery_partial : forall r a, is_double a -> a <> S754_nan -> between 0 1 (r_solar (setSolarActivity r a)).
Proof. intros r a D N. unfold setSolarActivity. cbn [r_solar]. exact (clamp01 a (conj D N)). Qed.
Example C413_nonvacuous : r_solar (setSolarActivity (setSolarActivity (made stair_exp 0 GEO []) S754_nan) (S754_infinity true)) = d0.
Proof. vm_compute. reflexivity. Qed.

Lemma flux_eq fexp fcos r r' p : r_mission r = r_mission r' -> r_solar r = r_solar r' -> parts r = parts r' -> calculateRadiationFlux fexp fcos r p = calculateRadiationFlux fexp fcos r' p.
Proof. intros M S Q. unfold parts in Q. injection Q as _ _ A B D. unfold calculateRadiationFlux, applyShielding. rewrite M, S, A, B, D. reflexivity. Qed.
Lemma seu_eq fexp fcos r r' p : calculateRadiationFlux fexp fcos r p = calculateRadiationFlux fexp fcos r' p -> calculateSEUProbability fexp fcos r p = calculateSEUProbability fexp fcos r' p.
Proof. intros Q. unfold calculateSEUProbability. rewrite Q. reflexivity. Qed.
Lemma shields_solar fexp cs : forall r, Forall (fun c => is_shield c = true) cs -> r_solar (rrun fexp r cs) = r_solar r.
Proof.
  induction cs as [|c cs IH]; intros r F; [reflexivity|]. inversion F as [|? ? A B]; subst. cbn [rrun fold_left]. fold (rrun fexp (rstep fexp r c) cs). rewrite IH by exact B. destruct c as [|t m|]; try discriminate A. cbn [rstep]. unfold setShielding, updateShielding. cbn [r_mat]. destruct (attenuation m) as ((x & y) & z). reflexivity.
Qed.
Lemma no_shields fexp cs r : Forall (fun c => is_shield c = false) cs -> parts (rrun fexp r cs) = parts r.
Proof.
  intros F. rewrite run_parts. assert (Q : last_shield cs None = None). { revert F. induction cs as [|c cs IH]; intros F; [reflexivity|]. inversion F; subst. destruct c; try discriminate; cbn [last_shield]; apply IH; assumption. } rewrite Q. reflexivity.
Qed.
Lemma parts_same r r' : parts r = parts r' -> r_mission r = r_mission r' -> same_but_activity r r'.
Proof. intros Q M. unfold parts in Q. injection Q as _ _ A B D. split; [exact M|]. split; [exact A|]. split; [exact B|exact D]. Qed.
Lemma new_parts fexp g m m' : parts (renv_new fexp g m) = parts (renv_new fexp g m').
Proof. apply upd_parts; reflexivity. Qed.
Lemma new_solar fexp g m : r_solar (renv_new fexp g m) = dq 5 10 /\ r_mission (renv_new fexp g m) = m.
Proof. unfold renv_new, updateShielding. cbn [r_mat]. destruct (attenuation g) as ((x & y) & z). split; reflexivity. Qed.

(** no later call that could stand for the passing of time undoes a flare: the proton flux stays up whatever shields are set *)
Theorem C414_flare_persists_refuted : forall fexp fcos g m i cs p, exp_lib fexp -> unit_lib fcos -> between (/ 10) 1 i -> Forall legal cs -> Forall (fun c => is_shield c = true) cs -> on_earth p ->
  R (proton (calculateRadiationFlux fexp fcos (made fexp g m cs) p)) * (105 / 100) - / 1000 <= R (proton (calculateRadiationFlux fexp fcos (made fexp g m (RFlare i :: cs)) p)).
Proof.
  intros fexp fcos g m i cs p X C (F & B) L S H. assert (N : not_negative i). { apply nneg_not. split; [exact (okd_dbl _ F)|]. rewrite (E_fin i (proj2 F)). lra. }
  assert (L' : Forall legal (RFlare i :: cs)) by (constructor; assumption). pose proof (made_ok fexp X g m cs L) as V. pose proof (made_ok fexp X g m _ L') as V'. set (r := made fexp g m cs) in *. set (r' := made fexp g m (RFlare i :: cs)) in *.
  set (r0 := renv_new fexp g m) in *. assert (Q' : r' = rrun fexp (rstep fexp r0 (RFlare i)) cs) by reflexivity. assert (Q : r = rrun fexp r0 cs) by reflexivity.
  assert (S1 : r_solar r = dq 5 10). { rewrite Q, shields_solar by exact S. apply new_solar. }
  assert (S2 : r_solar r' = r_solar (rstep fexp r0 (RFlare i))). { rewrite Q', shields_solar by exact S. reflexivity. }
  assert (P : parts r = parts r'). { rewrite Q, Q', !run_parts. destruct (last_shield cs None) as [(t & z)|]; reflexivity. }
  assert (M : r_mission r = r_mission r'). { rewrite Q, Q', !run_mission. reflexivity. }
  destruct (activity_law fexp fcos X C r r' p V V' (parts_same _ _ P M) H) as (_ & A & _). cbv zeta in A.
  assert (K : Rabs (R (r_solar r') - Rmin 1 (/ 2 + R i / 2)) <= / 1000000000000).
  { rewrite S2. pose proof (C412_activity fexp g m [] X (Forall_nil _)) as (_ & _ & _ & D). specialize (D i (conj F (ltac:(lra) : 0 <= R i <= 1))). cbv zeta in D. change (made fexp g m []) with r0 in D.
    assert (E5 : R (r_solar r0) = / 2). { unfold r0. rewrite (proj1 (new_solar fexp g m)). assert (Q5 : dq 5 10 = S754_finite false 4503599627370496 (-53)) by (vm_compute; reflexivity). rewrite Q5, fin_R. cbn [cond_Zopp]. change (b2 (-53)) with (/ 9007199254740992). lra. }
    rewrite E5 in D. exact D. }
  assert (E5 : R (r_solar r) = / 2). { rewrite S1. assert (Q5 : dq 5 10 = S754_finite false 4503599627370496 (-53)) by (vm_compute; reflexivity). rewrite Q5, fin_R. cbn [cond_Zopp]. change (b2 (-53)) with (/ 9007199254740992). lra. }
  rewrite E5 in A. apply Rabs_le_inv in A. apply Rabs_le_inv in K. rewrite Rmin_right in K by lra. destruct (flux_ok27 fexp fcos X C r p V H) as (_ & (_ & BP) & _). set (x := R (proton (calculateRadiationFlux fexp fcos r p))) in *. set (y := R (proton (calculateRadiationFlux fexp fcos r' p))) in *.
  assert (G : x * (723 / 100) <= x * (2 + 97 / 10 * R (r_solar r'))) by (apply Rmult_le_compat_l; lra). lra.
Qed.
Theorem C414_restored_partial : forall fexp fcos g m cs cs' p, exp_lib fexp -> Forall legal cs -> Forall (fun c => is_shield c = false) cs' -> let r := made fexp g m cs in
  calculateRadiationFlux fexp fcos (rrun fexp r (cs' ++ [RSolar (r_solar r)])) p = calculateRadiationFlux fexp fcos r p.
Proof.
  intros fexp fcos g m cs cs' p X L S r. apply flux_eq.
  - apply run_mission.
  - unfold rrun. rewrite fold_left_app. cbn [fold_left]. fold (rrun fexp r cs'). cbn [rstep]. unfold setSolarActivity. cbn [r_solar].
    pose proof (C412_activity fexp g m cs X L) as (A & D & _). exact (D (r_solar r) A).
  - apply no_shields. apply Forall_app. split; [exact S|]. constructor; [reflexivity|constructor].
Qed.
Example C414_nonvacuous : let r := made stair_exp 0 GEO [] in flt (proton (calculateRadiationFlux stair_exp unity r geo_point)) (proton (calculateRadiationFlux stair_exp unity (rrun stair_exp r [RFlare (dq 5 10)]) geo_point)) = true /\ between (/ 10) 1 d1.
Proof. split; [vm_compute; reflexivity|]. split; [exact (proj1 o_ok)|rewrite (proj2 o_ok); lra]. Qed.

(** the material a fresh object assumes is whatever its memory holds: with exp right at -1 and -1/2 two objects made alike differ *)
Theorem C415_fresh_material_refuted : forall fexp fcos m, exp_lib fexp -> between (35 / 100) (38 / 100) (fexp (dofZ (-1))) -> between (59 / 100) (7 / 10) (fexp (SFopp (dq 5 10))) -> (m = GEO \/ m = N_SOLAR_PROBE) ->
  electron (calculateRadiationFlux fexp fcos (made fexp 0 m []) geo_point) <> electron (calculateRadiationFlux fexp fcos (made fexp 2 m []) geo_point).
Proof.
  intros fexp fcos m X (F1 & B1) (F2 & B2) M. assert (Q : mission_flux fexp fcos m geo_point = gcr_model geo_point) by (destruct M; subst; reflexivity).
  unfold calculateRadiationFlux, made, rrun. cbn [fold_left]. rewrite (proj1 (new_solar fexp 0 m)), (proj1 (new_solar fexp 2 m)), (proj2 (new_solar fexp 0 m)), (proj2 (new_solar fexp 2 m)), Q. unfold applyShielding. cbn [electron].
  assert (E1 : electron (applySolar (dq 5 10) (gcr_model geo_point)) = S754_finite false 6349679650406400 (-40)) by (vm_compute; reflexivity). rewrite E1. set (k := S754_finite false 6349679650406400 (-40)).
  assert (O : okd k) by (split; vm_compute; reflexivity). assert (K : R k = 5775). { unfold k. rewrite fin_R. cbn [cond_Zopp]. change (b2 (-40)) with (/ 1099511627776). lra. } clearbody k.
  assert (T0 : r_e (renv_new fexp 0 m) = fexp (SFopp (dq 5 10))) by reflexivity. assert (T2 : r_e (renv_new fexp 2 m) = fexp (dofZ (-1))) by reflexivity. rewrite T0, T2. intros Z.
  destruct (mul_d k _ O F1) as (_ & M1); [unfold mid; rewrite K; lra|]. destruct (mul_d k _ O F2) as (_ & M2); [unfold mid; rewrite K; lra|]. rewrite K in M1, M2. rewrite Z, M1 in M2.
  pose proof (rnd_abs28 (5775 * R (fexp (dofZ (-1)))) ltac:(lra)) as A1. pose proof (rnd_abs28 (5775 * R (fexp (SFopp (dq 5 10)))) ltac:(lra)) as A2. lra.
Qed.
Theorem C415_material_partial : forall fexp fcos g g' m cs p, last_shield cs None <> None ->
  calculateRadiationFlux fexp fcos (made fexp g m cs) p = calculateRadiationFlux fexp fcos (made fexp g' m cs) p /\ calculateSEUProbability fexp fcos (made fexp g m cs) p = calculateSEUProbability fexp fcos (made fexp g' m cs) p.
Proof.
  intros fexp fcos g g' m cs p N. assert (Q : calculateRadiationFlux fexp fcos (made fexp g m cs) p = calculateRadiationFlux fexp fcos (made fexp g' m cs) p).
  { apply flux_eq; unfold made.
    - rewrite !run_mission, (proj2 (new_solar fexp g m)), (proj2 (new_solar fexp g' m)). reflexivity.
    - apply run_solar. rewrite (proj1 (new_solar fexp g m)), (proj1 (new_solar fexp g' m)). reflexivity.
    - rewrite !run_parts. destruct (last_shield cs None) as [(t & z)|]; [reflexivity|contradiction]. }
  split; [exact Q|exact (seu_eq _ _ _ _ _ Q)].
Qed.
Example C415_nonvacuous : exp_lib stair_exp /\ between (35 / 100) (38 / 100) (stair_exp (dofZ (-1))) /\ between (59 / 100) (7 / 10) (stair_exp (SFopp (dq 5 10))) /\ last_shield [RFlare d1; RShield d1 2; RSolar d0] None <> None.
Proof.
  split; [exact stair_ok|]. assert (Q1 : stair_exp (dofZ (-1)) = S754_finite false 6485183463413514 (-54)) by (vm_compute; reflexivity). assert (Q2 : stair_exp (SFopp (dq 5 10)) = S754_finite false 5404319552844595 (-53)) by (vm_compute; reflexivity).
  rewrite Q1, Q2. split; [split; [split; vm_compute; reflexivity|]|split; [split; [split; vm_compute; reflexivity|]|discriminate]]; rewrite fin_R; cbn [cond_Zopp].
  - change (b2 (-54)) with (/ 18014398509481984). lra.
  - change (b2 (-53)) with (/ 9007199254740992). lra.
Qed.

(** ** shields *)
Theorem C416_thicker_shield : forall fexp fcos g m cs cs' t t' mat p, exp_lib fexp -> lib_mono fexp -> unit_lib fcos -> Forall legal cs -> Forall legal cs' -> Forall (fun c => is_shield c = false) cs' ->
  not_negative t -> not_negative t' -> fle t t' = true -> on_earth p ->
  let thin := made fexp g m (cs ++ RShield t mat :: cs') in let thick := made fexp g m (cs ++ RShield t' mat :: cs') in
  flux_le (calculateRadiationFlux fexp fcos thick p) (calculateRadiationFlux fexp fcos thin p) /\ fle (calculateSEUProbability fexp fcos thick p) (calculateSEUProbability fexp fcos thin p) = true.
Proof.
  intros fexp fcos g m cs cs' t t' mat p X MO C L L' S N N' T H thin thick. assert (V : env_ok thin) by (apply (made_ok fexp X); apply Forall_app; split; [exact L|constructor; [exact N|exact L']]).
  assert (V' : env_ok thick) by (apply (made_ok fexp X); apply Forall_app; split; [exact L|constructor; [exact N'|exact L']]). set (r := made fexp g m cs).
  assert (Q : thin = rrun fexp (setShielding fexp r t mat) cs') by (unfold thin, made, rrun; rewrite fold_left_app; reflexivity). assert (Q' : thick = rrun fexp (setShielding fexp r t' mat) cs') by (unfold thick, made, rrun; rewrite fold_left_app; reflexivity).
  assert (Sol : r_solar thick = r_solar thin). { rewrite Q, Q'. apply run_solar. unfold setShielding, updateShielding. cbn [r_mat]. destruct (attenuation mat) as ((x & y) & z). reflexivity. }
  assert (Mi : r_mission thick = r_mission thin). { rewrite Q, Q', !run_mission. unfold setShielding, updateShielding. cbn [r_mat]. destruct (attenuation mat) as ((x & y) & z). reflexivity. }
  assert (PL : parts_le thick thin).
  { pose proof N as D. pose proof N' as D'. apply nneg_not in D. apply nneg_not in D'. assert (T' : E t <= E t') by (apply (leE t t' (proj1 D) (proj1 D')); exact T). pose proof (thicker fexp X r t t' mat MO D D' T') as K.
    pose proof (no_shields fexp cs' (setShielding fexp r t mat) S) as P. pose proof (no_shields fexp cs' (setShielding fexp r t' mat) S) as P'. rewrite <- Q in P. rewrite <- Q' in P'. unfold parts in P, P'. injection P as _ _ A1 A2 A3. injection P' as _ _ B1 B2 B3. unfold parts_le in *. rewrite A1, A2, A3, B1, B2, B3. exact K. }
  destruct (flux_mono fexp fcos X C thick thin p p V' V H H Sol PL) as (F & G); [rewrite Mi; split; [apply Rle_refl|split; [apply Rle_refl|split; apply Rle_refl]]|].
  split; [apply (fR_le _ _ (flux_ok27 fexp fcos X C _ p V' H) (flux_ok27 fexp fcos X C _ p V H) F)|].
  apply (fle_R _ _ 0 0); [exact (seu_ok _ (flux_ok27 fexp fcos X C _ p V' H))|exact (seu_ok _ (flux_ok27 fexp fcos X C _ p V H))|exact G].
Qed.
Example C416_nonvacuous : exp_lib one_exp /\ lib_mono one_exp /\ not_negative d0 /\ not_negative (S754_infinity false) /\ flt (electron (calculateRadiationFlux stair_exp unity (made stair_exp 0 GEO [RShield (dofZ 10) 2]) geo_point)) (electron (calculateRadiationFlux stair_exp unity (made stair_exp 0 GEO [RShield d1 2]) geo_point)) = true.
Proof. split; [exact one_exp_ok|]. split; [exact one_exp_mono|]. split; [split; vm_compute; reflexivity|]. split; [split; vm_compute; reflexivity|]. vm_compute. reflexivity. Qed.

(** ** flares and activity *)
Lemma rise_up x x' c c' k : 0 <= x -> 1 / 2 <= c -> 0 <= k -> c' <= k * c -> Rabs (x' * c - x * c') <= / 1000 -> x' <= k * x + / 1000 * / c.
Proof.
  intros A B K L H. apply Rabs_le_inv in H. apply (Rmult_le_reg_r c); [lra|]. assert (G : x * c' <= x * (k * c)) by (apply Rmult_le_compat_l; assumption). rewrite Rmult_plus_distr_r. replace (/ 1000 * / c * c) with (/ 1000) by (field; lra). replace (k * x * c) with (x * (k * c)) by ring. lra.
Qed.
Lemma rise_down x x' c c' : 0 <= x -> 1 / 2 <= c -> c <= c' -> Rabs (x' * c - x * c') <= / 1000 -> x <= x' + / 1000 * / c.
Proof.
  intros A B L H. apply Rabs_le_inv in H. apply (Rmult_le_reg_r c); [lra|]. assert (G : x * c <= x * c') by (apply Rmult_le_compat_l; assumption). rewrite Rmult_plus_distr_r. replace (/ 1000 * / c * c) with (/ 1000) by (field; lra). lra.
Qed.
Lemma inv_le c v : 0 < v -> v <= c -> / c <= / v. Proof. intros A B. apply Rinv_le_contravar; assumption. Qed.
Lemma flare_same fexp r i : same_but_activity r (rstep fexp r (RFlare i)). Proof. split; [reflexivity|]. split; [reflexivity|]. split; reflexivity. Qed.
(** the factor returned is 1 + 100 i; no flux grows more than sixfold *)
Theorem C417_factor_refuted : forall fexp fcos g m cs i p, exp_lib fexp -> unit_lib fcos -> Forall legal cs -> between 0 1 i -> on_earth p -> let r := made fexp g m cs in let f := calculateRadiationFlux fexp fcos r p in
  let f' := calculateRadiationFlux fexp fcos (fst (simulateSolarFlare r i)) p in
  Rabs (R (snd (simulateSolarFlare r i)) - (1 + 100 * R i)) <= / 100000 /\
  R (electron f') <= 6 * R (electron f) + / 1000 /\ R (proton f') <= 6 * R (proton f) + / 1000 /\ R (ion f') <= R (ion f) + / 100.
Proof.
  intros fexp fcos g m cs i p X C L (Fi & Bi) H r f f'. assert (N : not_negative i). { apply nneg_not. split; [exact (okd_dbl _ Fi)|]. rewrite (E_fin i (proj2 Fi)). lra. } split.
  - unfold simulateSolarFlare. cbn [snd]. destruct (ofZ_ex 100 ltac:(lia)) as (O1 & Q1). destruct (mul_d i _ Fi O1) as (O2 & Q2); [unfold mid; rewrite Q1; lra|]. rewrite Q1 in Q2. pose proof (rnd_abs28 (R i * 100) ltac:(lra)) as A1. rewrite <- Q2 in A1.
    destruct (add_d d1 _ (proj1 o_ok) O2) as (_ & Q3); [unfold mid; rewrite (proj2 o_ok); lra|]. rewrite (proj2 o_ok) in Q3. pose proof (rnd_abs28 (1 + R (dmul i (dofZ 100))) ltac:(lra)) as A2. rewrite <- Q3 in A2. apply Rabs_le. lra.
  - pose proof (made_ok fexp X g m cs L) as V. fold r in V. pose proof (step_ok fexp X r (RFlare i) V N) as V'. pose proof (activity_law fexp fcos X C r (rstep fexp r (RFlare i)) p V V' (flare_same fexp r i) H) as (A1 & A2 & A3). cbv zeta in A1, A2, A3. change (calculateRadiationFlux fexp fcos (rstep fexp r (RFlare i)) p) with f' in A1, A2, A3. fold f in A1, A2, A3.
    destruct (step_act fexp r (RFlare i) (proj1 V) N) as (_ & G). specialize (G eq_refl). assert (B : 0 <= R (r_solar r) <= 1) by apply V. assert (B' : 0 <= R (r_solar (rstep fexp r (RFlare i))) <= 1) by apply V'. set (a := R (r_solar r)) in *. set (a' := R (r_solar (rstep fexp r (RFlare i)))) in *.
    destruct (flux_ok27 fexp fcos X C r p V H) as ((_ & P1) & (_ & P2) & (_ & P3) & _). fold f in P1, P2, P3. clearbody a a' f f'. split; [|split].
    + eapply Rle_trans; [apply (rise_up _ (R (electron f')) (15 / 10 + 47 / 10 * a) (15 / 10 + 47 / 10 * a') 6 (proj1 P1)); try lra; assumption|]. pose proof (inv_le (15 / 10 + 47 / 10 * a) 1 ltac:(lra) ltac:(lra)). lra.
    + eapply Rle_trans; [apply (rise_up _ (R (proton f')) (2 + 97 / 10 * a) (2 + 97 / 10 * a') 6 (proj1 P2)); try lra; assumption|]. pose proof (inv_le (2 + 97 / 10 * a) 1 ltac:(lra) ltac:(lra)). lra.
    + eapply Rle_trans; [apply (rise_up _ _ (1 - 3 / 10 * a) (1 - 3 / 10 * a') 1 (proj1 P3)); try lra; assumption|]. pose proof (inv_le (1 - 3 / 10 * a) (1 / 2) ltac:(lra) ltac:(lra)). lra.
Qed.
Theorem C417_rise_partial : forall fexp fcos g m cs i p, exp_lib fexp -> unit_lib fcos -> Forall legal cs -> not_negative i -> on_earth p -> let r := made fexp g m cs in let f := calculateRadiationFlux fexp fcos r p in
  let f' := calculateRadiationFlux fexp fcos (fst (simulateSolarFlare r i)) p in R (electron f) <= R (electron f') + / 1000 /\ R (proton f) <= R (proton f') + / 1000.
Proof.
  intros fexp fcos g m cs i p X C L N H r f f'. pose proof (made_ok fexp X g m cs L) as V. fold r in V. pose proof (step_ok fexp X r (RFlare i) V N) as V'. pose proof (activity_law fexp fcos X C r (rstep fexp r (RFlare i)) p V V' (flare_same fexp r i) H) as (A1 & A2 & A3). cbv zeta in A1, A2, A3. change (calculateRadiationFlux fexp fcos (rstep fexp r (RFlare i)) p) with f' in A1, A2, A3. fold f in A1, A2, A3.
  destruct (step_act fexp r (RFlare i) (proj1 V) N) as (_ & G). specialize (G eq_refl). assert (B : 0 <= R (r_solar r) <= 1) by apply V. assert (B' : 0 <= R (r_solar (rstep fexp r (RFlare i))) <= 1) by apply V'. set (a := R (r_solar r)) in *. set (a' := R (r_solar (rstep fexp r (RFlare i)))) in *.
  destruct (flux_ok27 fexp fcos X C r p V H) as ((_ & P1) & (_ & P2) & (_ & P3) & _). fold f in P1, P2, P3. clearbody a a' f f'. split.
  + eapply Rle_trans; [apply (rise_down _ (R (electron f')) (15 / 10 + 47 / 10 * a) (15 / 10 + 47 / 10 * a') (proj1 P1)); try lra; exact A1|]. pose proof (inv_le (15 / 10 + 47 / 10 * a) 1 ltac:(lra) ltac:(lra)). lra.
  + eapply Rle_trans; [apply (rise_down _ (R (proton f')) (2 + 97 / 10 * a) (2 + 97 / 10 * a') (proj1 P2)); try lra; exact A2|]. pose proof (inv_le (2 + 97 / 10 * a) 1 ltac:(lra) ltac:(lra)). lra.
Qed.
Example C417_nonvacuous : snd (simulateSolarFlare (made stair_exp 0 GEO []) d1) = dofZ 101 /\ between 0 1 d1 /\ not_negative (S754_infinity false).
Proof. split; [vm_compute; reflexivity|]. split; [split; [exact (proj1 o_ok)|rewrite (proj2 o_ok); lra]|split; vm_compute; reflexivity]. Qed.

Theorem C418_activity_law : forall fexp fcos g m cs a a' p, exp_lib fexp -> unit_lib fcos -> Forall legal cs -> between 0 1 a -> between 0 1 a' -> on_earth p ->
  let f := calculateRadiationFlux fexp fcos (made fexp g m (cs ++ [RSolar a])) p in let f' := calculateRadiationFlux fexp fcos (made fexp g m (cs ++ [RSolar a'])) p in
  Rabs (R (electron f') * (15 / 10 + 47 / 10 * R a) - R (electron f) * (15 / 10 + 47 / 10 * R a')) <= / 1000 /\
  Rabs (R (proton f') * (2 + 97 / 10 * R a) - R (proton f) * (2 + 97 / 10 * R a')) <= / 1000 /\
  Rabs (R (ion f') * (1 - 3 / 10 * R a) - R (ion f) * (1 - 3 / 10 * R a')) <= / 1000.
Proof.
  intros fexp fcos g m cs a a' p X C L B B' H f f'. assert (LA : forall b, between 0 1 b -> legal (RSolar b)). { intros b (F & _). split; [apply F|]. intros ->. discriminate (proj2 F). }
  pose proof (made_ok fexp X g m _ (proj2 (Forall_app legal cs [RSolar a]) (conj L (Forall_cons _ (LA a B) (Forall_nil _))))) as V. pose proof (made_ok fexp X g m _ (proj2 (Forall_app legal cs [RSolar a']) (conj L (Forall_cons _ (LA a' B') (Forall_nil _))))) as V'.
  pose proof (C412_activity fexp g m cs X L) as (_ & D & _). cbv zeta in D. assert (Q : forall b, made fexp g m (cs ++ [RSolar b]) = rstep fexp (made fexp g m cs) (RSolar b)) by (intros b; unfold made, rrun; rewrite fold_left_app; reflexivity).
  pose proof (activity_law fexp fcos X C _ _ p V V') as A. rewrite !Q in A. specialize (A (ltac:(split; [reflexivity|split; [reflexivity|split; reflexivity]])) H). cbv zeta in A. rewrite (D a B), (D a' B') in A. unfold f, f'. rewrite !Q. exact A.
Qed.
Example C418_nonvacuous : between 0 1 (dq 25 100) /\ flt (ion (calculateRadiationFlux stair_exp unity (made stair_exp 0 GEO [RSolar d1]) geo_point)) (ion (calculateRadiationFlux stair_exp unity (made stair_exp 0 GEO [RSolar d0]) geo_point)) = true.
Proof.
  split; [|vm_compute; reflexivity]. assert (Q : dq 25 100 = S754_finite false 4503599627370496 (-54)) by (vm_compute; reflexivity). rewrite Q. split; [split; vm_compute; reflexivity|]. rewrite fin_R. cbn [cond_Zopp]. change (b2 (-54)) with (/ 18014398509481984). lra.
Qed.

(** ** missions *)
Lemma missions_ok fexp fcos g m m' cs p : exp_lib fexp -> unit_lib fcos -> Forall legal cs -> on_earth p -> fR (mission_flux fexp fcos m p) (mission_flux fexp fcos m' p) ->
  flux_le (calculateRadiationFlux fexp fcos (made fexp g m cs) p) (calculateRadiationFlux fexp fcos (made fexp g m' cs) p) /\ fle (calculateSEUProbability fexp fcos (made fexp g m cs) p) (calculateSEUProbability fexp fcos (made fexp g m' cs) p) = true.
Proof.
  intros X C L H F. pose proof (made_ok fexp X g m cs L) as V. pose proof (made_ok fexp X g m' cs L) as V'.
  assert (S : r_solar (made fexp g m cs) = r_solar (made fexp g m' cs)). { apply run_solar. rewrite (proj1 (new_solar fexp g m)), (proj1 (new_solar fexp g m')). reflexivity. }
  assert (P : parts (made fexp g m cs) = parts (made fexp g m' cs)). { unfold made. rewrite !run_parts. destruct (last_shield cs None) as [(t & z)|]; [reflexivity|apply new_parts]. }
  assert (PL : parts_le (made fexp g m cs) (made fexp g m' cs)). { unfold parts in P. injection P as _ _ A1 A2 A3. unfold parts_le. rewrite A1, A2, A3. split; [apply Rle_refl|split; apply Rle_refl]. }
  assert (MM : forall k, r_mission (made fexp g k cs) = k). { intros k. unfold made. rewrite run_mission. apply new_solar. }
  destruct (flux_mono fexp fcos X C _ _ p p V V' H H S PL) as (G & K); [rewrite !MM; exact F|]. split; [exact (fR_le _ _ (flux_ok27 fexp fcos X C _ p V H) (flux_ok27 fexp fcos X C _ p V' H) G)|].
  apply (fle_R _ _ 0 0); [exact (seu_ok _ (flux_ok27 fexp fcos X C _ p V H))|exact (seu_ok _ (flux_ok27 fexp fcos X C _ p V' H))|exact K].
Qed.
(** [harsher m m']: mission [m'] is meant to be at least as harsh as [m] *)
Definition harsher (m m' : space_mission) : Prop :=
  In (m, m') [(GEO, N_LUNAR); (N_LUNAR, N_MARS); (N_MARS, N_JUPITER); (GEO, MEO); (GEO, LEO_EQUATORIAL); (GEO, LEO_POLAR)].
Theorem C419_mission_order : forall fexp fcos g m m' cs p, exp_lib fexp -> unit_lib fcos -> Forall legal cs -> on_earth p -> harsher m m' ->
  flux_le (calculateRadiationFlux fexp fcos (made fexp g m cs) p) (calculateRadiationFlux fexp fcos (made fexp g m' cs) p) /\
  fle (calculateSEUProbability fexp fcos (made fexp g m cs) p) (calculateSEUProbability fexp fcos (made fexp g m' cs) p) = true.
Proof.
  intros fexp fcos g m m' cs p X C L H W. apply missions_ok; try assumption. destruct (order_deep fexp fcos p H) as (A1 & A2 & A3). destruct (order_earth fexp fcos X C p H) as (A4 & A5).
  unfold harsher in W. cbn [In] in W. repeat (destruct W as [W|W]; [injection W as <- <-; assumption|]). destruct W.
Qed.
Example C419_nonvacuous : harsher GEO N_LUNAR /\ let f m := proton (calculateRadiationFlux stair_exp unity (made stair_exp 0 m []) geo_point) in flt (f GEO) (f N_LUNAR) = true /\ flt (f N_LUNAR) (f N_MARS) = true /\ flt (f N_MARS) (f N_JUPITER) = true.
Proof. split; [left; reflexivity|]. vm_compute. split; [reflexivity|split; reflexivity]. Qed.

(** the distance to the Sun is a constant 1 AU, so a solar probe sees what a geostationary satellite sees *)
Theorem C420_solar_probe_refuted : forall fexp fcos g cs p, calculateRadiationFlux fexp fcos (made fexp g N_SOLAR_PROBE cs) p = calculateRadiationFlux fexp fcos (made fexp g GEO cs) p /\
  calculateRadiationFlux fexp fcos (made fexp g LEO_POLAR cs) p = calculateRadiationFlux fexp fcos (made fexp g LEO_EQUATORIAL cs) p.
Proof.
  intros fexp fcos g cs p. assert (MM : forall k, r_mission (made fexp g k cs) = k). { intros k. unfold made. rewrite run_mission. apply new_solar. }
  assert (S : forall k k', r_solar (made fexp g k cs) = r_solar (made fexp g k' cs)). { intros k k'. apply run_solar. rewrite (proj1 (new_solar fexp g k)), (proj1 (new_solar fexp g k')). reflexivity. }
  assert (P : forall k k', parts (made fexp g k cs) = parts (made fexp g k' cs)). { intros k k'. unfold made. rewrite !run_parts. destruct (last_shield cs None) as [(t & z)|]; [reflexivity|apply new_parts]. }
  assert (K : forall k k', mission_flux fexp fcos k p = mission_flux fexp fcos k' p -> calculateRadiationFlux fexp fcos (made fexp g k cs) p = calculateRadiationFlux fexp fcos (made fexp g k' cs) p).
  { intros k k' Q. specialize (P k k'). unfold parts in P. injection P as _ _ A1 A2 A3. unfold calculateRadiationFlux, applyShielding. rewrite (S k k'), !MM, Q, A1, A2, A3. reflexivity. }
  split; apply K; [apply probe_eq|reflexivity].
Qed.
Example C420_nonvacuous : flt d0 (proton (calculateRadiationFlux stair_exp unity (made stair_exp 0 N_SOLAR_PROBE [RFlare d1]) geo_point)) = true.
Proof. vm_compute. reflexivity. Qed.

(** ** the South Atlantic Anomaly *)
Definition low_orbit (m : space_mission) : Prop := m = LEO_EQUATORIAL \/ m = LEO_POLAR.
Theorem C421_anomaly : forall fexp fcos g m cs mat p q, exp_lib fexp -> unit_lib fcos -> Forall legal cs -> low_orbit m -> on_earth p -> on_earth q -> lat p = lat q -> alt p = alt q -> 20 + / 100 < sqrt (saa_distance2 p) ->
  let r := made fexp g m cs in
  (20 + / 100 < sqrt (saa_distance2 q) -> calculateRadiationFlux fexp fcos r q = calculateRadiationFlux fexp fcos r p) /\
  flux_le (calculateRadiationFlux fexp fcos r p) (calculateRadiationFlux fexp fcos r q) /\
  (sqrt (saa_distance2 q) <= 10 -> let bare := setShielding fexp r d0 mat in R (proton (calculateRadiationFlux fexp fcos bare p)) + 900000 <= R (proton (calculateRadiationFlux fexp fcos bare q))).
Proof.
  intros fexp fcos g m cs mat p q X C L M H H' La Al D r. pose proof (made_ok fexp X g m cs L) as V. fold r in V. assert (MM : r_mission r = m). { unfold r, made. rewrite run_mission. apply new_solar. }
  destruct (leo_anomaly fexp fcos X C m p q M H H' La Al D) as (F & Q). split; [|split].
  - intros D'. unfold calculateRadiationFlux. rewrite MM, (Q D'). reflexivity.
  - destruct (flux_mono fexp fcos X C r r p q V V H H' eq_refl) as (G & _); [split; [apply Rle_refl|split; apply Rle_refl]|rewrite MM; exact F|]. exact (fR_le _ _ (flux_ok27 fexp fcos X C _ p V H) (flux_ok27 fexp fcos X C _ q V H') G).
  - intros D' bare. apply (anomaly_protons fexp fcos X C r mat p q V); try assumption. rewrite MM. exact M.
Qed.
Lemma far_point k : (Z.abs k <= 1000)%Z -> 441 <= (IZR k + 40) * (IZR k + 40) -> 20 + / 100 < sqrt (saa_distance2 (mkPos (dofZ (-30)) (dofZ k) (dofZ 400))).
Proof.
  intros K G. unfold saa_distance2. cbn [lat lon]. destruct (ofZ_ex (-30) ltac:(lia)) as (_ & A). destruct (ofZ_ex k ltac:(lia)) as (_ & B). rewrite A, B. apply Rlt_le_trans with 21; [lra|]. rewrite <- (sqrt_square 21) by lra. apply sqrt_le_1_alt. lra.
Qed.
Lemma near_point : sqrt (saa_distance2 anomaly_point) <= 10.
Proof.
  unfold saa_distance2, anomaly_point. cbn [lat lon]. destruct (ofZ_ex (-30) ltac:(lia)) as (_ & A). destruct (ofZ_ex (-40) ltac:(lia)) as (_ & B). rewrite A, B. replace ((-30 + 30) * (-30 + 30) + (-40 + 40) * (-40 + 40)) with 0 by ring. rewrite sqrt_0. lra.
Qed.
Example C421_nonvacuous : on_earth anomaly_point /\ sqrt (saa_distance2 anomaly_point) <= 10 /\ on_earth (mkPos (dofZ (-30)) (dofZ 100) (dofZ 400)) /\ 20 + / 100 < sqrt (saa_distance2 (mkPos (dofZ (-30)) (dofZ 100) (dofZ 400))).
Proof.
  split; [exact anomaly_ok|]. split; [exact near_point|]. split; [|apply far_point; [lia|lra]]. split; [apply (int_between _ _ (-30)); [lia|lra]|apply (int_between _ _ 100); [lia|lra]|split; vm_compute; reflexivity].
Qed.

(** 320 degrees east is 40 degrees west; the anomaly is only there under its second name *)
Theorem C422_longitude_refuted : forall fexp fcos g m cs mat, exp_lib fexp -> unit_lib fcos -> Forall legal cs -> low_orbit m -> let bare := setShielding fexp (made fexp g m cs) d0 mat in
  let p := mkPos (dofZ (-30)) (dofZ 320) (dofZ 400) in let q := mkPos (dofZ (-30)) (dofZ (-40)) (dofZ 400) in
  on_earth p /\ on_earth q /\ R (lon p) = R (lon q) + 360 /\ R (proton (calculateRadiationFlux fexp fcos bare p)) + 900000 <= R (proton (calculateRadiationFlux fexp fcos bare q)).
Proof.
  intros fexp fcos g m cs mat X C L M bare p q. assert (H : on_earth p). { split; [apply (int_between _ _ (-30)); [lia|lra]|apply (int_between _ _ 320); [lia|lra]|split; vm_compute; reflexivity]. }
  assert (H' : on_earth q) by exact anomaly_ok. split; [exact H|]. split; [exact H'|]. split; [unfold p, q; cbn [lon]; rewrite (proj2 (ofZ_ex 320 ltac:(lia))), (proj2 (ofZ_ex (-40) ltac:(lia))); lra|].
  destruct (C421_anomaly fexp fcos g m cs mat p q X C L M H H' eq_refl eq_refl) as (_ & _ & K); [apply far_point; [lia|lra]|]. exact (K near_point).
Qed.
Theorem C422_longitude_partial : forall fexp fcos g m cs p q, ~ low_orbit m -> lat p = lat q -> alt p = alt q -> let r := made fexp g m cs in
  calculateRadiationFlux fexp fcos r p = calculateRadiationFlux fexp fcos r q /\ calculateSEUProbability fexp fcos r p = calculateSEUProbability fexp fcos r q.
Proof.
  intros fexp fcos g m cs p q N La Al r. assert (MM : r_mission r = m). { unfold r, made. rewrite run_mission. apply new_solar. } destruct (gcr_lon fexp fcos p q La Al) as (G & V).
  assert (K : calculateRadiationFlux fexp fcos r p = calculateRadiationFlux fexp fcos r q). { unfold calculateRadiationFlux. rewrite MM. assert (Z : mission_flux fexp fcos m p = mission_flux fexp fcos m q); [|rewrite Z; reflexivity]. destruct m; try (exfalso; apply N; unfold low_orbit; tauto); cbn [mission_flux]; rewrite ?G, ?V; reflexivity. }
  split; [exact K|]. unfold calculateSEUProbability. rewrite K. reflexivity.
Qed.
Example C422_nonvacuous : ~ low_orbit MEO /\ low_orbit LEO_POLAR. Proof. split; [intros [Q|Q]; discriminate|right; reflexivity]. Qed.

Theorem C423_latitude_altitude : forall fexp fcos g m cs p q, exp_lib fexp -> unit_lib fcos -> Forall legal cs -> beltless m = true -> on_earth p -> on_earth q ->
  Rabs (R (lat p)) <= Rabs (R (lat q)) -> fle (alt p) (alt q) = true -> let r := made fexp g m cs in
  flux_le (calculateRadiationFlux fexp fcos r p) (calculateRadiationFlux fexp fcos r q) /\ fle (calculateSEUProbability fexp fcos r p) (calculateSEUProbability fexp fcos r q) = true.
Proof.
  intros fexp fcos g m cs p q X C L B H H' La Al r. pose proof (made_ok fexp X g m cs L) as V. fold r in V. assert (MM : r_mission r = m). { unfold r, made. rewrite run_mission. apply new_solar. }
  assert (A : E (alt p) <= E (alt q)). { pose proof (oe_alt _ H) as D. pose proof (oe_alt _ H') as D'. apply nneg_not in D. apply nneg_not in D'. apply (leE _ _ (proj1 D) (proj1 D')). exact Al. }
  pose proof (place_mono fexp fcos m p q B H H' La A) as F.
  destruct (flux_mono fexp fcos X C r r p q V V H H' eq_refl) as (G & K); [split; [apply Rle_refl|split; apply Rle_refl]|rewrite MM; exact F|]. split; [exact (fR_le _ _ (flux_ok27 fexp fcos X C _ p V H) (flux_ok27 fexp fcos X C _ q V H') G)|].
  apply (fle_R _ _ 0 0); [exact (seu_ok _ (flux_ok27 fexp fcos X C _ p V H))|exact (seu_ok _ (flux_ok27 fexp fcos X C _ q V H'))|exact K].
Qed.
Example C423_nonvacuous : beltless N_JUPITER = true /\ beltless N_SOLAR_PROBE = true /\ let r := made stair_exp 0 N_MARS [] in
  flt (ion (calculateRadiationFlux stair_exp unity r (mkPos d0 d0 d0))) (ion (calculateRadiationFlux stair_exp unity r (mkPos (dofZ (-45)) d0 (dofZ 500)))) = true.
Proof. split; [reflexivity|]. split; [reflexivity|]. vm_compute. reflexivity. Qed.

(** ** trajectories *)
Lemma heat_app fexp fcos r ps acc : fold_left (fun acc p => (acc ++ [calculateSEUProbability fexp fcos r p])%list) ps acc = acc ++ map (calculateSEUProbability fexp fcos r) ps.
Proof. revert acc. induction ps as [|p ps IH]; intros acc; cbn [fold_left map]; [symmetry; apply app_nil_r|]. rewrite IH, <- app_assoc. reflexivity. Qed.
Theorem C424_heatmap : forall fexp fcos g m cs ps, exp_lib fexp -> unit_lib fcos -> Forall legal cs -> Forall on_earth ps -> let r := made fexp g m cs in let h := generateHeatmap fexp fcos r ps in
  length h = length ps /\ Forall (between 0 1) h /\ (forall k p, nth_error ps k = Some p -> nth_error h k = Some (calculateSEUProbability fexp fcos r p)) /\
  forall qs, generateHeatmap fexp fcos r (ps ++ qs) = h ++ generateHeatmap fexp fcos r qs.
Proof.
  intros fexp fcos g m cs ps X C L F r h. unfold h, generateHeatmap. rewrite heat_app. cbn [app]. split; [apply map_length|]. split; [|split].
  - apply Forall_map. revert F. apply Forall_impl. intros p H. exact (C411_seu_probability fexp fcos g m cs p X C L H).
  - intros k p K. rewrite nth_error_map, K. reflexivity.
  - intros qs. rewrite !heat_app. cbn [app]. apply map_app.
Qed.
Example C424_nonvacuous : Forall on_earth [geo_point; anomaly_point] /\ length (generateHeatmap stair_exp unity (made stair_exp 0 LEO_POLAR []) [geo_point; anomaly_point; geo_point]) = 3%nat.
Proof. split; [constructor; [exact geo_ok|constructor; [exact anomaly_ok|constructor]]|reflexivity]. Qed.

Definition half_cube (x : sf) : sf := d1.
Theorem C425_orbit_position : forall fsin fpow3 i h t, unit_lib fsin -> cube_lib fpow3 -> finite_double i -> between 0 100000000 h -> between 0 1000000000000 t ->
  let p := generateOrbitPosition fsin fpow3 i h t in alt p = h /\ finite_double (lat p) /\ Rabs (R (lat p)) <= Rabs (R i) /\ finite_double (lon p) /\ -180 <= R (lon p) < 180 /\
  (Rabs (R i) <= 90 -> on_earth p).
Proof.
  intros fsin fpow3 i h t U C Fi H T p. destruct (lat_ok fsin fpow3 U C i h t Fi H T) as (O1 & B1). destruct (lon_ok fsin fpow3 i h t) as (O2 & B2 & _); [split; [apply T|destruct T as (_ & T); lra]|]. specialize (B2 (proj1 (proj2 T))). fold p in O1, B1, O2, B2.
  split; [reflexivity|]. split; [exact O1|]. split; [exact B1|]. split; [exact O2|]. split; [exact B2|]. intros I. split.
  - split; [exact O1|]. apply Rabs_le_inv. lra.
  - split; [exact O2|]. lra.
  - change (alt p) with h. destruct H as (F & B). split; [apply F|]. apply (fle_d d0 h (proj1 z_ok) F). rewrite (proj2 z_ok). lra.
Qed.
Example C425_nonvacuous : unit_lib unity /\ cube_lib half_cube /\ between 0 100000000 (dofZ 400) /\ between 0 1000000000000 (dofZ 13) /\ lon (generateOrbitPosition unity half_cube (dofZ 51) (dofZ 400) (dofZ 13)) = dofZ 15.
Proof.
  split; [exact unity_ok|]. split; [|split; [apply int_between; [lia|lra]|split; [apply int_between; [lia|lra]|vm_compute; reflexivity]]].
  intros x _. split; [exact (proj1 o_ok)|]. unfold half_cube. rewrite (proj2 o_ok). change (bpow radix2 120) with 1329227995784915872903807060280344576. lra.
Qed.

(** before the epoch the longitude is at most -180 *)
Theorem C426_negative_time_refuted : forall fsin fpow3 i h t, between (-1000000000000) 0 t -> R (lon (generateOrbitPosition fsin fpow3 i h t)) <= -180.
Proof.
  intros fsin fpow3 i h t (F & B). destruct (lon_ok fsin fpow3 i h t) as (_ & _ & K); [split; [exact F|lra]|]. apply K. lra.
Qed.
Theorem C426_negative_time_partial : forall fsin fpow3 i h t, between (-1000000000000) 1000000000000 t -> let l := lon (generateOrbitPosition fsin fpow3 i h t) in finite_double l /\ -540 <= R l < 180.
Proof.
  intros fsin fpow3 i h t (F & B) l. destruct (lon_ok fsin fpow3 i h t) as (O & K1 & K2); [split; [exact F|lra]|]. fold l in O, K1, K2. split; [exact O|]. destruct (Rle_or_lt 0 (R t)) as [G|G]; [specialize (K1 G)|specialize (K2 (Rlt_le _ _ G))]; lra.
Qed.
Example C426_nonvacuous : lon (generateOrbitPosition unity half_cube (dofZ 51) (dofZ 400) (dofZ (-1))) = dofZ (-195) /\ between (-1000000000000) 0 (dofZ (-1)).
Proof. split; [vm_compute; reflexivity|apply int_between; [lia|lra]]. Qed.

(** ** distances *)
Theorem C427_distance_symmetric : forall fsin fcos fatan2 p q, (forall x, fsin (SFopp x) = SFopp (fsin x)) -> distanceTo fsin fcos fatan2 p q = distanceTo fsin fcos fatan2 q p.
Proof. intros fsin fcos fatan2 p q O. exact (distance_sym fsin fcos fatan2 O p q). Qed.
Definition straight (x : sf) : sf := x.
Definition flat_atan2 (y x : sf) : sf := y.
Example C427_nonvacuous : (forall x, straight (SFopp x) = SFopp (straight x)) /\ flt d1 (distanceTo straight unity flat_atan2 geo_point anomaly_point) = true.
Proof. split; [reflexivity|vm_compute; reflexivity]. Qed.

Theorem C428_distance_itself : forall fsin fcos fatan2 p, sin_lib fsin -> unit_lib fcos -> fatan2 d0 d1 = d0 -> finite_double (lat p) -> (Rabs (R (lat p)) <= 360) -> finite_double (lon p) -> finite_double (alt p) -> distanceTo fsin fcos fatan2 p p = d0.
Proof.
  intros fsin fcos fatan2 p S C A F B F2 F3. assert (K : between (-1) 1 (fcos (radians (lat p)))). { apply C. apply radians_ok. split; [exact F|]. apply Rabs_le_inv in B. lra. } destruct K as ((V & G) & K).
  apply (distance_self fsin fcos fatan2 (sin_zero _ S) A p F F2 F3 G); [apply Rabs_le; exact K|exact V].
Qed.
Definition sign_sin (x : sf) : sf := match x with S754_finite s _ _ | S754_infinity s => if s then SFopp d1 else d1 | y => y end.
Example C428_nonvacuous : sin_lib sign_sin /\ unit_lib unity /\ flat_atan2 d0 d1 = d0 /\ distanceTo sign_sin unity flat_atan2 anomaly_point anomaly_point = d0.
Proof.
  split; [|split; [exact unity_ok|split; [reflexivity|vm_compute; reflexivity]]]. constructor.
  - intros x (V & F). destruct x as [s|s| |s m e]; try discriminate F; cbn [sign_sin].
    + split; [split; destruct s; reflexivity|]. assert (Q : R (S754_zero s) = 0) by reflexivity. rewrite Q. lra.
    + destruct s.
      * assert (Q : SFopp d1 = dofZ (-1)) by (vm_compute; reflexivity). rewrite Q. apply int_between; [lia|lra].
      * apply (int_between _ _ 1); [lia|lra].
  - intros x. destruct x as [[]|[]| |[] m e]; reflexivity.
  - reflexivity.
Qed.

(** ** the dose *)
Theorem C429_dose : forall fexp fcos g m cs p, exp_lib fexp -> unit_lib fcos -> Forall legal cs -> on_earth p -> let f := calculateRadiationFlux fexp fcos (made fexp g m cs) p in
  Rabs (R (dose f) - (R (electron f) / 1000 + R (proton f) / 100 + R (ion f) / 10)) <= / 10000 /\ Rabs (R (getTotalFlux f) - (R (electron f) + R (proton f) + R (ion f))) <= / 10000.
Proof. intros fexp fcos g m cs p X C L H. exact (dose_law fexp fcos X C _ p (made_ok fexp X g m cs L) H). Qed.
Example C429_nonvacuous : let f := calculateRadiationFlux stair_exp unity (made stair_exp 0 MEO [RShield d0 0]) geo_point in flt d1 (dose f) = true /\ flt (electron f) (getTotalFlux f) = true.
Proof. vm_compute. split; reflexivity. Qed.

Print Assumptions C410_flux_finite.
Print Assumptions C411_seu_probability.
Print Assumptions C412_activity.
Print Assumptions C413_illegal_refuted.
Print Assumptions C413_recovery_partial.
Print Assumptions C414_flare_persists_refuted.
Print Assumptions C414_restored_partial.
Print Assumptions C415_fresh_material_refuted.
Print Assumptions C415_material_partial.
Print Assumptions C416_thicker_shield.
Print Assumptions C417_factor_refuted.
Print Assumptions C417_rise_partial.
Print Assumptions C418_activity_law.
Print Assumptions C419_mission_order.
Print Assumptions C420_solar_probe_refuted.
Print Assumptions C421_anomaly.
Print Assumptions C422_longitude_refuted.
Print Assumptions C422_longitude_partial.
Print Assumptions C423_latitude_altitude.
Print Assumptions C424_heatmap.
Print Assumptions C425_orbit_position.
Print Assumptions C426_negative_time_refuted.
Print Assumptions C426_negative_time_partial.
Print Assumptions C427_distance_symmetric.
Print Assumptions C428_distance_itself.
Print Assumptions C429_dose.
