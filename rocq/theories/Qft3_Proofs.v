(** The energy of the empty field; the multi-particle simulation. *)
From Coq Require Import List NArith ZArith Bool Arith Lia Reals Lra SpecFloat.
Import ListNotations.
From Flocq Require Import Core BinarySingleNaN.
From Verif Require Import Outcome Words Floats FloatsR HealthFloat Bits_Model Qft_Model Qft_Spec Qft_Proofs Qft2_Proofs.
Local Open Scope Z_scope.

Section Lib.
Variables (fexp fpow2 fsin fcos : sf -> sf) (cabs carg : cplx -> sf).
Lemma zero_add s : dadd d0 (S754_zero s) = d0. Proof. destruct s; reflexivity. Qed.
Lemma zero_div s y : fin y = true -> ~ is_zero y -> is_zero (ddiv (S754_zero s) y).
Proof. destruct y; cbn; intros F N; try discriminate; [exfalso; apply N; eexists; reflexivity|eexists; reflexivity]. Qed.
Lemma vac_lap sp : dmul sp sp <> S754_nan -> ~ is_zero (dmul sp sp) -> exists s t, laplacian sp czero czero czero czero czero czero czero = (S754_zero s, S754_zero t).
Proof.
  intros N Z. unfold laplacian. assert (E : csub (cadd (cadd (cadd (cadd (cadd czero czero) czero) czero) czero) czero) (cscale czero (dofZ 6)) = czero) by (vm_compute; reflexivity).
  rewrite E. unfold cdivr, czero, d0. cbn [fst snd]. destruct (dmul sp sp) as [s|s| |s m e]; [exfalso; apply Z; eexists; reflexivity| |contradiction|]; exists s, s; destruct s; reflexivity.
Qed.
Lemma half_fin : fin (dq 1 2) = true. Proof. vm_compute. reflexivity. Qed.
Lemma vac_kin sp h mass : dmul sp sp <> S754_nan -> ~ is_zero (dmul sp sp) -> fin h = true -> fin mass = true -> ~ is_zero mass ->
  is_zero (ddiv (dmul (dmul (dmul (cnorm (laplacian sp czero czero czero czero czero czero czero)) (dq 1 2)) h) h) mass).
Proof.
  intros N Z H M MZ. destruct (vac_lap sp N Z) as (s & t & E). rewrite E. unfold cnorm. cbn [fst snd].
  assert (E2 : dadd (dmul (S754_zero s) (S754_zero s)) (dmul (S754_zero t) (S754_zero t)) = d0) by (destruct s, t; reflexivity). rewrite E2.
  destruct (zero_mul false (dq 1 2) half_fin) as [a A]. unfold d0. rewrite A. destruct (zero_mul a h H) as [b B]. rewrite B. destruct (zero_mul b h H) as [c C]. rewrite C.
  apply zero_div; assumption.
Qed.
Lemma half_zero mass a : fin mass = true -> a = d0 -> is_zero (dmul (dmul (dmul (dq 1 2) mass) a) a) \/ dmul (dq 1 2) mass = S754_nan \/ (exists s, dmul (dq 1 2) mass = S754_infinity s).
Proof.
  intros F ->. destruct (dmul (dq 1 2) mass) as [s|s| |s m e] eqn:E; [left|right; right; eauto|right; left; reflexivity|left]; (eexists; cbn; reflexivity).
Qed.
Lemma half_mass mass : is_double mass -> fin mass = true -> fin (dmul (dq 1 2) mass) = true.
Proof.
  intros V F. assert (HH : valid_binary 53 1024 (dq 1 2) = true) by (vm_compute; reflexivity).
  assert (RH : R (dq 1 2) = (/ 2)%R). { replace (dq 1 2) with (S754_finite false 4503599627370496 (-53)) by (vm_compute; reflexivity). unfold R, SF2R, F2R. cbn. lra. }
  pose proof (mul_R 53 1024 (dq 1 2) mass HH V half_fin F) as H. rewrite RH in H.
  assert (B : (Rabs (rnd 53 1024 (/ 2 * R mass)) < bpow radix2 1024)%R).
  { pose proof (fin_bound 53 1024 mass V) as FB. pose proof (rnd_R 53 1024 mass V) as RR. apply Rabs_def2 in FB.
    assert (NN : (- Rabs (R mass) <= / 2 * R mass <= Rabs (R mass))%R) by (unfold Rabs; destruct (Rcase_abs (R mass)); lra).
    assert (VA : valid_binary 53 1024 (SFabs mass) = true) by (destruct mass; exact V).
    assert (RA : R (SFabs mass) = Rabs (R mass)). { destruct mass as [s|s| |s m e]; unfold R, SF2R, SFabs; try (rewrite Rabs_R0; reflexivity). rewrite <- F2R_Zabs, abs_cond_Zopp. reflexivity. }
    assert (VO : valid_binary 53 1024 (SFopp (SFabs mass)) = true) by (destruct mass; exact V).
    assert (RO : R (SFopp (SFabs mass)) = (- Rabs (R mass))%R). { rewrite <- RA. destruct mass as [s|s| |s m e]; unfold R, SF2R, SFopp, SFabs; try (rewrite Ropp_0; reflexivity). rewrite <- F2R_Zopp. reflexivity. }
    pose proof (rnd_between 53 1024 (SFopp (SFabs mass)) (SFabs mass) (/ 2 * R mass) VO VA) as RB. rewrite RA, RO in RB. specialize (RB NN).
    pose proof (Rabs_pos (R mass)). assert (Rabs (R mass) < bpow radix2 1024)%R by (apply Rabs_def1; lra). apply Rabs_def1; lra. }
  destruct (H B) as (_ & FF & _). exact FF.
Qed.
Lemma vacuum_energy q t f mass : built f -> mass_for q t f = Some mass -> (forall pos, inside (f_dims f) pos -> at_ f pos = czero) -> cabs czero = d0 ->
  dmul (f_spacing f) (f_spacing f) <> S754_nan -> ~ is_zero (dmul (f_spacing f) (f_spacing f)) -> fin (hbar q) = true -> is_double mass -> fin mass = true -> ~ is_zero mass ->
  calculateTotalEnergy cabs q t f = Ret d0.
Proof.
  intros B M A C N Z H VM FM MZ. destruct (energy_inv cabs q t f mass (fun x => x = d0) B M) as (k & p & E & PK & PP).
  - reflexivity.
  - intros acc p i j k -> I ->. destruct (inner_inside _ _ I) as (i' & j' & k' & a & b & c & Ep & D & H1 & H2 & H3). injection Ep as <- <- <-.
    unfold kin_term. rewrite !A by (rewrite D; apply inside3; lia). destruct (vac_kin (f_spacing f) (hbar q) mass N Z H FM MZ) as [s S]. rewrite S. apply zero_add.
  - intros acc p -> I. rewrite (A p I), C. destruct (half_zero mass d0 FM eq_refl) as [[s S]|S]; [rewrite S; apply zero_add|].
    exfalso. pose proof (half_mass mass VM FM) as F. destruct S as [S|[s S]]; rewrite S in F; discriminate.
  - rewrite E, PK, PP. reflexivity.
Qed.
Lemma square_ok sp : is_double sp -> fin sp = true -> (bpow radix2 (-500) <= R sp <= bpow radix2 500)%R -> dmul sp sp <> S754_nan /\ ~ is_zero (dmul sp sp).
Proof.
  intros V F [L U]. pose proof (bpow_gt_0 radix2 (-500)) as P0. pose proof (bpow_gt_0 radix2 500) as P5.
  pose (lo := S754_finite false 4503599627370496 (-1052)). pose (hi := S754_finite false 4503599627370496 948).
  assert (RL : R lo = bpow radix2 (-1000)). { unfold R, SF2R, lo, F2R. cbn [Fnum Fexp cond_Zopp]. change (IZR 4503599627370496) with (bpow radix2 52). rewrite <- bpow_plus. reflexivity. }
  assert (RH : R hi = bpow radix2 1000). { unfold R, SF2R, hi, F2R. cbn [Fnum Fexp cond_Zopp]. change (IZR 4503599627370496) with (bpow radix2 52). rewrite <- bpow_plus. reflexivity. }
  assert (B1 : (bpow radix2 (-1000) <= R sp * R sp)%R). { replace (bpow radix2 (-1000)) with (bpow radix2 (-500) * bpow radix2 (-500))%R by (rewrite <- bpow_plus; reflexivity). apply Rmult_le_compat; lra. }
  assert (B2 : (R sp * R sp <= bpow radix2 1000)%R). { replace (bpow radix2 1000) with (bpow radix2 500 * bpow radix2 500)%R by (rewrite <- bpow_plus; reflexivity). apply Rmult_le_compat; lra. }
  assert (VL : valid_binary 53 1024 lo = true) by (vm_compute; reflexivity). assert (VH : valid_binary 53 1024 hi = true) by (vm_compute; reflexivity).
  pose proof (rnd_between 53 1024 lo hi (R sp * R sp) VL VH) as RB. rewrite RL, RH in RB. specialize (RB (conj B1 B2)).
  assert (PP : (0 < bpow radix2 (-1000))%R) by apply bpow_gt_0. assert (LT : (bpow radix2 1000 < bpow radix2 1024)%R) by (apply bpow_lt; lia).
  destruct (mul_R 53 1024 sp sp V V F F) as (RM & FM & _); [rewrite Rabs_pos_eq by lra; lra|]. fold (dmul sp sp) in RM, FM. split.
  - intros E. rewrite E in FM. discriminate.
  - intros [s E]. rewrite E in RM. unfold R at 1 in RM. cbn [SF2R] in RM. lra.
Qed.

(** ** the simulation *)
Notation sim := (simulateMultiParticleInteraction fsin fcos cabs carg).
Lemma energies_ret q fs : Forall built fs -> (forall f, In f fs -> masses q (f_type f) <> None) -> exists es, energies cabs q fs = Ret es /\ length es = length fs.
Proof.
  induction fs as [|f r IH]; intros B M; cbn [energies]; [exists []; auto|]. inversion B; subst.
  destruct (masses q (f_type f)) as [mass|] eqn:E; [|exfalso; exact (M f (or_introl eq_refl) E)].
  destruct (energy_ret cabs q None f mass H1 E) as [e Ee]. rewrite Ee. cbn [obind]. destruct (IH H2) as (es & E2 & L); [intros g G; apply M; right; exact G|].
  rewrite E2. cbn [obind]. exists (e :: es). cbn. auto.
Qed.
Lemma energies_throw q fs : Forall built fs -> (exists f, In f fs /\ masses q (f_type f) = None) -> energies cabs q fs = Throw E_runtime_error.
Proof.
  induction fs as [|f r IH]; intros B (g & G & M); [destruct G|]. cbn [energies]. inversion B; subst.
  destruct (masses q (f_type f)) as [mass|] eqn:E.
  - destruct (energy_ret cabs q None f mass H1 E) as [e Ee]. rewrite Ee. cbn [obind]. rewrite IH; [reflexivity|assumption|]. destruct G as [->|G]; [congruence|eauto].
  - rewrite (energy_throw cabs q None f E). reflexivity.
Qed.
Lemma sim_nomass q fs steps : Forall built fs -> (exists f, In f fs /\ masses q (f_type f) = None) -> sim fs q steps = (fs, Throw E_runtime_error).
Proof. intros B M. unfold simulateMultiParticleInteraction. rewrite (energies_throw q fs B M). reflexivity. Qed.
Definition fermion (t : ptype) : Prop := t = Electron \/ t = Proton \/ t = Positron \/ t = Muon.
Lemma evolve_fermions q fs : (forall f, In f fs -> fermion (f_type f)) -> evolve_all fsin fcos cabs carg q fs = (fs, Ret tt).
Proof.
  induction fs as [|f r IH]; intros H; cbn [evolve_all]; [reflexivity|]. specialize (IH (fun g G => H g (or_intror G))). rewrite IH. rewrite dirac_same.
  destruct (H f (or_introl eq_refl)) as [E|[E|[E|E]]]; rewrite E; reflexivity.
Qed.
Lemma sub_self x : dsub x x = if fin x then d0 else S754_nan.
Proof.
  destruct x as [s|s| |s m e]; cbn [fin is_finite_SF]; try (destruct s; reflexivity); try reflexivity. unfold dsub, SFsub.
  cbv beta iota zeta. rewrite Z.sub_diag. reflexivity.
Qed.
Lemma zip_sub_self l : zip_sub l l = map (fun e => if fin e then d0 else S754_nan) l.
Proof. induction l as [|x r IH]; cbn [zip_sub map]; [reflexivity|]. rewrite sub_self, IH. reflexivity. Qed.
Lemma zip_len a : forall b, length b = length a -> length (zip_sub a b) = length a.
Proof. induction a as [|x r IH]; intros [|y s] H; cbn in *; try discriminate; auto. Qed.
Lemma sim_fermions q fs steps : Forall built fs -> (forall f, In f fs -> masses q (f_type f) <> None) -> (forall f, In f fs -> fermion (f_type f)) ->
  exists es, energies cabs q fs = Ret es /\ sim fs q steps = (fs, Ret (map (fun e => if fin e then d0 else S754_nan) es)).
Proof.
  intros B M F. destruct (energies_ret q fs B M) as (es & E & L). exists es. split; [exact E|]. unfold simulateMultiParticleInteraction. rewrite E, (evolve_fermions q fs F). rewrite E. cbn [obind].
  rewrite zip_sub_self. reflexivity.
Qed.
(** one evolution step keeps every field's shape *)
Lemma mloop_shape q c : forall ps e b e' b' o, maxwell_loop fsin fcos q c ps e b = (e', b', o) -> same_shape e e' /\ same_shape b b'.
Proof.
  induction ps as [|p r IH]; intros e b e' b' o H; cbn [maxwell_loop] in H; [injection H as <- <- <-; split; apply shape_refl|].
  assert (SS : forall f pos v g, setFieldAt f pos v = Ret g -> same_shape f g).
  { intros f pos v g S. unfold setFieldAt in S. destruct (calculateIndex f pos); try discriminate. cbn [obind] in S. destruct (_ || _); [discriminate|]. injection S as <-. unfold same_shape. cbn. rewrite set_nth_len. auto. }
  destruct (getFieldAt e p) as [ev| | |]; try (injection H as <- <- <-; split; apply shape_refl).
  destruct (getFieldAt b p) as [bv| | |]; try (injection H as <- <- <-; split; apply shape_refl).
  destruct (maxwell_pair fsin fcos q c p ev bv) as [ne nb].
  destruct (setFieldAt e p ne) as [e1| | |] eqn:S1; try (injection H as <- <- <-; split; apply shape_refl). apply SS in S1.
  destruct (setFieldAt b p nb) as [b1| | |] eqn:S2; try (injection H as <- <- <-; split; [exact S1|apply shape_refl]). apply SS in S2.
  apply IH in H. destruct H as [A B]. split; eapply shape_trans; eassumption.
Qed.
Lemma maxwell_shape q e b e' b' o : maxwell_evolve fsin fcos q e b = (e', b', o) -> same_shape e e' /\ same_shape b b'.
Proof.
  unfold maxwell_evolve. destruct (_ || _); [intros H; injection H as <- <- <-; split; apply shape_refl|].
  destruct (getCoupling q Photon); try (intros H; injection H as <- <- <-; split; apply shape_refl). apply mloop_shape.
Qed.
Lemma evolve_shape q : forall n fs fs' o, (length fs <= n)%nat -> Forall built fs -> evolve_all fsin fcos cabs carg q fs = (fs', o) -> Forall2 same_shape fs fs'.
Proof.
  induction n as [|n IH]; intros fs fs' o L B H; destruct fs as [|f r]; cbn [evolve_all] in H; try (injection H as <- <-; constructor; fail); cbn in L; try lia.
  assert (RR : forall l : list field, Forall2 same_shape l l) by (induction l; constructor; auto using shape_refl).
  inversion B; subst.
  assert (G : forall h, same_shape f h -> (let (r', o) := evolve_all fsin fcos cabs carg q r in (h :: r', o)) = (fs', o) -> Forall2 same_shape (f :: r) fs').
  { intros h SH E. destruct (evolve_all fsin fcos cabs carg q r) as [r' o'] eqn:E2. injection E as <- <-. constructor; [exact SH|]. eapply IH; [|exact H3|exact E2]. lia. }
  destruct (f_type f) eqn:T.
  - apply (G _) in H; [exact H|]. rewrite dirac_same. apply shape_refl.
  - apply (G _) in H; [exact H|]. rewrite dirac_same. apply shape_refl.
  - destruct (kg_ok fsin fcos cabs carg q Neutron f H2 T) as (h & E & SH & _). rewrite E in H. exact (G h SH H).
  - destruct r as [|g r2]; [injection H as <- <-; apply RR|].
    destruct (ptype_eqb (f_type g) Photon) eqn:TG; [|exact (G f (shape_refl f) H)].
    destruct (maxwell_evolve fsin fcos q f g) as [[f' g'] om] eqn:ME. apply maxwell_shape in ME. destruct ME as [S1 S2]. inversion H3; subst.
    destruct om as [u| | |]; [|injection H as <- <-; constructor; [exact S1|constructor; [exact S2|apply RR]]..].
    destruct (evolve_all fsin fcos cabs carg q r2) as [r' o'] eqn:E2. injection H as <- <-. constructor; [exact S1|]. constructor; [exact S2|]. eapply IH; [|exact H5|exact E2]. cbn in L. lia.
  - destruct (kg_ok fsin fcos cabs carg q HeavyIon f H2 T) as (h & E & SH & _). rewrite E in H. exact (G h SH H).
  - apply (G _) in H; [exact H|]. rewrite dirac_same. apply shape_refl.
  - apply (G _) in H; [exact H|]. rewrite dirac_same. apply shape_refl.
  - destruct (kg_ok fsin fcos cabs carg q Neutrino f H2 T) as (h & E & SH & _). rewrite E in H. exact (G h SH H).
Qed.
(** the outcome of the evolution: nothing but the exceptions of a badly matched photon pair *)
Lemma f2_built fs fs' : Forall2 same_shape fs fs' -> Forall built fs -> Forall built fs'.
Proof. induction 1; intros B; inversion B; subst; constructor; eauto using shape_built. Qed.
Lemma f2_mass q fs fs' : Forall2 same_shape fs fs' -> (forall f, In f fs -> masses q (f_type f) <> None) -> forall f, In f fs' -> masses q (f_type f) <> None.
Proof. induction 1 as [|f g r s SH F IH]; intros M h I; [destruct I|]. destruct I as [<-|I]; [destruct SH as (T & _); rewrite T; apply M; left; reflexivity|]. apply IH; [intros; apply M; right; assumption|exact I]. Qed.
Lemma f2_length {A B} (P : A -> B -> Prop) l m : Forall2 P l m -> length l = length m. Proof. induction 1; cbn; auto. Qed.
Lemma sim_shape q fs steps fs' o : Forall built fs -> sim fs q steps = (fs', o) -> Forall2 same_shape fs fs' /\ (forall l, o = Ret l -> length l = length fs).
Proof.
  intros B H. unfold simulateMultiParticleInteraction in H. assert (RR : forall l : list field, Forall2 same_shape l l) by (induction l; constructor; auto using shape_refl).
  destruct (energies cabs q fs) as [e0| | |] eqn:E0; try (injection H as <- <-; split; [apply RR|intros l; discriminate]).
  assert (M : forall f, In f fs -> masses q (f_type f) <> None). { intros f I N. rewrite (energies_throw q fs B) in E0; [discriminate|eauto]. }
  destruct (energies_ret q fs B M) as (es & Ee & L). rewrite E0 in Ee. injection Ee as <-.
  destruct (evolve_all fsin fcos cabs carg q fs) as [gs og] eqn:EV. pose proof (evolve_shape q (length fs) fs gs og (le_n _) B EV) as SH.
  destruct og as [u| | |]; try (injection H as <- <-; split; [exact SH|intros l; discriminate]). injection H as <- <-. split; [exact SH|]. intros l E.
  destruct (energies_ret q gs (f2_built _ _ SH B) (f2_mass q _ _ SH M)) as (e1 & E1 & L1). rewrite E1 in E. cbn [obind] in E. injection E as <-. rewrite zip_len; rewrite ?L, ?L1, (f2_length _ _ _ SH); reflexivity.
Qed.
End Lib.
