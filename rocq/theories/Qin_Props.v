(** Properties C452-C460: the decision to apply quantum corrections, the enhancement factor, the three bounded quantities, the corrected
    defects and the parameters a crystal gives (src/physics/quantum_integration.cpp). *)
From Coq Require Import List NArith ZArith Bool Arith Lia Reals Lra Psatz SpecFloat.
Import ListNotations.
From Flocq Require Import Core BinarySingleNaN.
From Verif Require Import Outcome Words Floats FloatsR HealthFloat Bits_Model RMA3_Proofs Tester3_Proofs Hw_Proofs Hw2_Proofs Qft_Model Qft_Spec Qft2_Proofs Qft4_Proofs Qft5_Proofs Qft6_Proofs Qft7_Proofs Qft8_Proofs Qft9_Proofs Qer_Spec Qer_Proofs Qer2_Proofs Qer3_Proofs Env3_Proofs EnvB_Props Qin_Model Qin_Proofs Qin2_Proofs Qin3_Proofs.
Local Open Scope R_scope.

Definition sample_crystal : crystal := mkC FCC (dofZ 5) (dofZ 1).
Definition sample_defects : defects :=
  mkD (fun t => match t with Proton => Some [dofZ 100; dofZ 7] | HeavyIon => Some [dofZ 9] | _ => None end)
      (fun t => match t with Proton => Some [dofZ 100] | Neutron => Some [] | _ => None end)
      (fun t => match t with Proton => Some [dofZ 100] | _ => None end).

(** ** C452: when corrections are applied *)
Theorem C452_gate : forall fexp c d t f i cfg,
  (* off: never; forced: always *)
  (q_enable cfg = false -> shouldApply t f i cfg = false) /\
  (q_enable cfg = true -> q_force cfg = true -> shouldApply t f i cfg = true) /\
  (* otherwise one criterion is enough *)
  (q_enable cfg = true -> q_force cfg = false -> finite_double t -> finite_double f -> finite_double i ->
     finite_double (q_temp cfg) -> finite_double (q_feature cfg) -> finite_double (q_intensity cfg) ->
     (shouldApply t f i cfg = true <-> R t < R (q_temp cfg) \/ R f < R (q_feature cfg) \/ R i > R (q_intensity cfg))) /\
  (* a NaN meets no criterion: like an infinite temperature or size and no radiation *)
  shouldApply S754_nan f i cfg = shouldApply (S754_infinity false) f i cfg /\
  shouldApply t S754_nan i cfg = shouldApply t (S754_infinity false) i cfg /\
  shouldApply t f S754_nan cfg = shouldApply t f (S754_infinity true) cfg /\
  (* nothing is changed unless they are applied, and nothing is thrown *)
  (shouldApply t f i cfg = false -> correctSimulation fexp d c t f i cfg = Ret d) /\
  (exists d', correctSimulation fexp d c t f i cfg = Ret d').
Proof.
  intros fexp c d t f i cfg. unfold shouldApply, correctSimulation. split; [intros ->; reflexivity|]. split; [intros -> ->; reflexivity|].
  assert (L : forall x, flt (S754_infinity false) x = false) by (intros [[]|[]| |[]]; reflexivity). assert (L' : forall x, flt x (S754_infinity true) = false) by (intros [[]|[]| |[]]; reflexivity).
  split.
  { intros -> -> [T1 T2] [F1 F2] [I1 I2] [A1 A2] [B1 B2] [C1 C2]. cbn [negb]. rewrite !orb_true_iff. rewrite (flt_d t _ (conj T1 T2) (conj A1 A2)), (flt_d f _ (conj F1 F2) (conj B1 B2)), (flt_d _ i (conj C1 C2) (conj I1 I2)). unfold Rgt. tauto. }
  split; [rewrite L, (proj2 (flt_nan (q_temp cfg))); reflexivity|]. split; [rewrite L, (proj2 (flt_nan (q_feature cfg))); reflexivity|]. split; [rewrite L', (proj1 (flt_nan (q_intensity cfg))); reflexivity|].
  unfold shouldApply. split; [intros ->; reflexivity|]. set (b := negb _) at 1. destruct b; eexists; reflexivity.
Qed.
Example C452_nonvacuous : shouldApply (dofZ 150) (dofZ 20) (dofZ 100000) default_qconfig = false /\ shouldApply (dofZ 149) (dofZ 20) (dofZ 100000) default_qconfig = true /\
  shouldApply (dofZ 150) (dofZ 19) (dofZ 100000) default_qconfig = true /\ shouldApply (dofZ 150) (dofZ 20) (dofZ 100001) default_qconfig = true /\ shouldApply S754_nan S754_nan S754_nan default_qconfig = false.
Proof. split; [vm_compute; reflexivity|]. split; [vm_compute; reflexivity|]. split; [vm_compute; reflexivity|]. split; vm_compute; reflexivity. Qed.

(** ** C453: the enhancement factor *)
(** "Cap the maximum enhancement from temperature alone to 4%", "... from size alone to 8%" *)
Theorem C453_caps_refuted :
  ~ (forall t f, finite_double t -> finite_double f -> 20 <= R f -> R (enhancement t f) <= 105 / 100) /\
  ~ (forall t f, finite_double t -> finite_double f -> 150 <= R t -> R (enhancement t f) <= 109 / 100).
Proof.
  destruct (ofZ_ex 10 ltac:(lia)) as [O10 _]. destruct (ofZ_ex 20 ltac:(lia)) as [O20 E20]. destruct (ofZ_ex 150 ltac:(lia)) as [O150 E150]. destruct (ofZ_ex 5 ltac:(lia)) as [O5 _]. destruct n12_10 as [OL BL]. split; intros H.
  - specialize (H (dofZ 10) (dofZ 20) O10 O20 ltac:(rewrite E20; lra)). assert (Q : R (dq 12 10) <= R (enhancement (dofZ 10) (dofZ 20)) + / 10).
    { assert (G : enhancement (dofZ 10) (dofZ 20) = dq 12 10) by (vm_compute; reflexivity). rewrite G. lra. } lra.
  - specialize (H (dofZ 150) (dofZ 5) O150 O5 ltac:(rewrite E150; lra)). assert (Q : fle (dq 12 10) (enhancement (dofZ 150) (dofZ 5)) = true) by (vm_compute; reflexivity).
    apply (fle_d _ _ OL (proj1 (enh_range (dofZ 150) (dofZ 5) (proj1 O150) (proj1 O5)))) in Q. lra.
Qed.
(** for every pair of doubles, NaN and infinities included, it is finite and between 1 and 1.6 (1.21 and 1.33 for one effect alone); it does not grow
    with temperature or size, and saturates below 10 K and 2 nm, and from 150 K and 20 nm on there is none *)
Theorem C453_enhancement_partial :
  (forall t f, is_double t -> is_double f -> between 1 (16 / 10) (enhancement t f)) /\
  (forall t f, is_double t -> finite_double f -> 20 <= R f -> between 1 (121 / 100) (enhancement t f)) /\
  (forall t f, finite_double t -> is_double f -> 150 <= R t -> between 1 (133 / 100) (enhancement t f)) /\
  (forall t f, finite_double t -> finite_double f -> 150 <= R t -> 20 <= R f -> R (enhancement t f) = 1) /\
  (forall t t' f f', is_double t -> is_double t' -> is_double f -> is_double f' -> fle t t' = true -> fle f f' = true -> fle (enhancement t' f') (enhancement t f) = true) /\
  (forall t f, is_double t -> flt t (dofZ 10) = true -> enhancement t f = enhancement (dofZ 10) f) /\
  (forall t f, is_double f -> flt f (dofZ 2) = true -> enhancement t f = enhancement t (dofZ 2)).
Proof.
  destruct (ofZ_ex 20 ltac:(lia)) as [O20 E20]. destruct (ofZ_ex 150 ltac:(lia)) as [O150 E150]. destruct (ofZ_ex 10 ltac:(lia)) as [O10 E10]. destruct (ofZ_ex 2 ltac:(lia)) as [O2 E2].
  assert (F1 : forall t, finite_double t -> 150 <= R t -> factor 5 150 10 (dq 4 100) t = d1). { intros t [V F] L. unfold factor. destruct (flt t (dofZ 150)) eqn:Q; [|reflexivity]. apply (flt_d _ _ (conj V F) O150) in Q. lra. }
  assert (F2 : forall f, finite_double f -> 20 <= R f -> factor 4 20 2 (dq 8 100) f = d1). { intros t [V F] L. unfold factor. destruct (flt t (dofZ 20)) eqn:Q; [|reflexivity]. apply (flt_d _ _ (conj V F) O20) in Q. lra. }
  split; [intros t f T F; destruct (enh_range t f T F) as [O B]; split; assumption|].
  split. { intros t f T F L. destruct (enh_eq t f T (proj1 F)) as [O Q]. destruct (f1_range t T) as [O1 B1]. split; [exact O|]. rewrite Q, (F2 f F L), (proj2 o_ok), Rmult_1_r, (rnd_id _ O1). lra. }
  split. { intros t f T F L. destruct (enh_eq t f (proj1 T) F) as [O Q]. destruct (f2_range f F) as [O1 B1]. split; [exact O|]. rewrite Q, (F1 t T L), (proj2 o_ok), Rmult_1_l, (rnd_id _ O1). lra. }
  split. { intros t f T F L M. destruct (enh_eq t f (proj1 T) (proj1 F)) as [O Q]. rewrite Q, (F1 t T L), (F2 f F M), (proj2 o_ok), Rmult_1_l. change 1 with (b2 0). apply rnd_bpow. lia. }
  split.
  { intros t t' f f' T T' F F' L M. assert (N : forall x y, fle x y = true -> x <> S754_nan /\ y <> S754_nan) by (intros x y Q; split; intros ->; [destruct y|destruct x]; discriminate Q).
    destruct (N _ _ L) as [N1 N2]. destruct (N _ _ M) as [N3 N4]. apply (leE _ _ (conj T N1) (conj T' N2)) in L. apply (leE _ _ (conj F N3) (conj F' N4)) in M.
    apply (fle_d _ _ (proj1 (enh_range t' f' T' F')) (proj1 (enh_range t f T F))). apply enh_anti; try assumption; split; assumption. }
  assert (TR : forall x a b, is_double x -> flt x (dofZ a) = true -> (0 < a < b)%Z -> (b < 1000)%Z -> flt x (dofZ b) = true /\ fmax x (dofZ a) = dofZ a /\ flt (dofZ a) (dofZ b) = true /\ fmax (dofZ a) (dofZ a) = dofZ a).
  { intros x a b V Q A B. destruct (ofZ_ex a ltac:(lia)) as [OA EA]. destruct (ofZ_ex b ltac:(lia)) as [OB EB]. assert (LT : flt (dofZ a) (dofZ b) = true) by (apply (flt_d _ _ OA OB); rewrite EA, EB; apply IZR_lt; lia). split; [|split; [unfold fmax; rewrite Q; reflexivity|split; [exact LT|unfold fmax; destruct (flt (dofZ a) (dofZ a)); reflexivity]]].
    apply (ltE _ _ (conj V (proj1 (flt_nn _ _ Q))) (okd_dbl _ OB)). apply (ltE _ _ (conj V (proj1 (flt_nn _ _ Q))) (okd_dbl _ OA)) in Q. apply (ltE _ _ (okd_dbl _ OA) (okd_dbl _ OB)) in LT. lra. }
  split; intros t f V Q; unfold enhancement; cbv zeta; [destruct (TR t 10%Z 150%Z V Q ltac:(lia) ltac:(lia)) as (A & B & C & D)|destruct (TR f 2%Z 20%Z V Q ltac:(lia) ltac:(lia)) as (A & B & C & D)]; rewrite A, B, C, D; reflexivity.
Qed.
Example C453_nonvacuous : flt d1 (enhancement (dofZ 100) (dofZ 30)) = true /\ flt (enhancement (dofZ 100) (dofZ 30)) (enhancement (dofZ 50) (dofZ 7)) = true /\ enhancement S754_nan S754_nan = d1.
Proof. split; [vm_compute; reflexivity|]. split; vm_compute; reflexivity. Qed.

(** ** C454: tunnelling *)
Theorem C454_tunnelling : forall fexp barrier mass hb t, exp_lib fexp -> is_double barrier -> is_double mass -> is_double hb -> is_double t ->
  between 0 (R (dq 5 100)) (qtunnel fexp barrier mass hb t) /\
  (flt t d1 = true -> qtunnel fexp barrier mass hb t = qtunnel fexp barrier mass hb d1) /\
  (flt barrier (dq 1 100) = true -> qtunnel fexp barrier mass hb t = qtunnel fexp (dq 1 100) mass hb t) /\
  (forall t', lib_mono fexp -> moderate barrier -> is_double t' -> fle t t' = true -> fle (qtunnel fexp barrier mass hb t') (qtunnel fexp barrier mass hb t) = true).
Proof.
  intros fexp b m hb t X B M H T. assert (TI : forall y, is_double y -> okd (qtunnel fexp b m hb y) /\ 0 <= R (qtunnel fexp b m hb y) <= R (dq 5 100)). { intros y Y. unfold is_double in *. destruct (tunnel_in fexp X b m hb y) as [Q|[Q|[Q|[Q|Q]]]]; [exact Q|exfalso; congruence..]. }
  split; [destruct (TI t T) as [O Q]; split; assumption|]. split.
  { intros Q. rewrite !tunnel_eq. unfold ratio_of. assert (F : fmax t d1 = d1) by (unfold fmax; rewrite Q; reflexivity). rewrite F. reflexivity. }
  split.
  { intros Q. rewrite !tunnel_eq. unfold ratio_of, base_of. assert (F : fmax b (dq 1 100) = dq 1 100) by (unfold fmax; rewrite Q; reflexivity). assert (F2 : fmax (dq 1 100) (dq 1 100) = dq 1 100) by (vm_compute; reflexivity). rewrite F, F2. reflexivity. }
  intros t' LM MB T' L. assert (N1 : t <> S754_nan) by (intros ->; discriminate L). assert (N2 : t' <> S754_nan) by (intros ->; destruct t; discriminate L). apply (leE _ _ (conj T N1) (conj T' N2)) in L.
  apply (fle_d _ _ (proj1 (TI t' T')) (proj1 (TI t T))). exact (tunnel_anti fexp X b m hb t t' LM (moderate_bnd _ MB) M H (conj T N1) (conj T' N2) L).
Qed.
Example C454_nonvacuous : exp_lib stair_exp /\ moderate (dq 1 100) /\ flt (qtunnel stair_exp (dq 1 100) d0 hbar_ev (dofZ 500)) (qtunnel stair_exp (dq 1 100) d0 hbar_ev (dofZ 100)) = true /\ qtunnel stair_exp (dq 1 100) d0 hbar_ev (dofZ 100) = dq 5 100.
Proof.
  split; [exact stair_ok|]. split; [|split; vm_compute; reflexivity]. assert (B : bnd (-7) (-6) (dq 1 100)) by (apply lit_bnd; vm_compute; reflexivity). set (x := dq 1 100) in *. clearbody x. destruct B as [O B]. split; [exact O|]. change (b2 (-7)) with (/ 128) in B. change (b2 (-6)) with (/ 64) in B. lra.
Qed.

(** ** C455: the Klein-Gordon correction lies between its least and greatest value, whatever the doubles *)
Theorem C455_klein_gordon : forall hb mass pot g s ts, is_double hb -> is_double mass -> is_double pot -> is_double g -> is_double s -> is_double ts ->
  between (R (dq 1 1000)) (R (dq 5 100)) (kg_correction hb mass pot g s ts) /\
  (flt s (dq 1 1000) = true -> kg_correction hb mass pot g s ts = kg_correction hb mass pot g (dq 1 1000) ts) /\
  (flt mass (dq 1 (10 ^ 32)%positive) = true -> kg_correction hb mass pot g s ts = kg_correction hb (dq 1 (10 ^ 32)%positive) pot g s ts).
Proof.
  intros hb mass pot g s ts A B C D F G. split; [destruct (kg_range hb mass pot g s ts A B C D F G) as [O Q]; split; assumption|]. unfold kg_correction. cbv zeta. split; intros Q.
  - assert (E1 : fmax s (dq 1 1000) = dq 1 1000) by (unfold fmax; rewrite Q; reflexivity). assert (E2 : fmax (dq 1 1000) (dq 1 1000) = dq 1 1000) by (vm_compute; reflexivity). rewrite E1, E2. reflexivity.
  - assert (E1 : fmax mass (dq 1 (10 ^ 32)%positive) = dq 1 (10 ^ 32)%positive) by (unfold fmax; rewrite Q; reflexivity). assert (E2 : fmax (dq 1 (10 ^ 32)%positive) (dq 1 (10 ^ 32)%positive) = dq 1 (10 ^ 32)%positive) by (vm_compute; reflexivity). rewrite E1, E2. reflexivity.
Qed.
Example C455_nonvacuous : kg_correction d1 d1 (dq 5 10) (dq 1 10) d1 (dofZ 1000) = dq 5 100 /\ kg_correction S754_nan d1 d1 d1 d1 d1 = dq 5 100 /\ kg_correction d1 d1 d1 d1 (dofZ 1000) d1 = dq 1 1000 /\
  flt (dq 1 1000) (kg_correction d1 d1 d1 d1 (dofZ 4) (dofZ 4)) = true /\ flt (kg_correction d1 d1 d1 d1 (dofZ 4) (dofZ 4)) (dq 5 100) = true.
Proof. split; [vm_compute; reflexivity|]. split; [vm_compute; reflexivity|]. split; [vm_compute; reflexivity|]. split; vm_compute; reflexivity. Qed.

(** ** C456: the zero-point contribution *)
Theorem C456_zero_point : forall hb mass lattice t, between (bpow radix2 (-100)) (bpow radix2 100) hb -> is_double mass -> is_double lattice -> is_double t ->
  between 0 (R (dq 5 100)) (zpe hb mass lattice t) /\
  (flt t d1 = true -> zpe hb mass lattice t = zpe hb mass lattice d1) /\
  (forall t', is_double t' -> fle t t' = true -> fle (zpe hb mass lattice t') (zpe hb mass lattice t) = true).
Proof.
  intros hb mass lattice t [OH BH] M L T. assert (H : bnd (-100) 100 hb) by (split; assumption). assert (ZI := fun y (Y : is_double y) => zpe_range hb mass lattice y H M L Y). split; [destruct (ZI t T) as [O Q]; split; assumption|].
  split; [intros Q; unfold zpe; cbv zeta; assert (F : fmax t d1 = d1) by (unfold fmax; rewrite Q; reflexivity); rewrite F; reflexivity|].
  intros t' T' LE. assert (N1 : t <> S754_nan) by (intros ->; discriminate LE). assert (N2 : t' <> S754_nan) by (intros ->; destruct t; discriminate LE). apply (leE _ _ (conj T N1) (conj T' N2)) in LE.
  apply (fle_d _ _ (proj1 (ZI t' T')) (proj1 (ZI t T))). exact (zpe_anti hb mass lattice t t' H M L (conj T N1) (conj T' N2) LE).
Qed.
Example C456_nonvacuous : between (bpow radix2 (-100)) (bpow radix2 100) hbar_ev /\ flt (zpe hbar_ev d1 (dofZ 5) (dofZ 300)) (zpe hbar_ev d1 (dofZ 5) (dofZ 4)) = true /\ flt d0 (zpe hbar_ev d1 (dofZ 5) (dofZ 300)) = true.
Proof.
  split; [|split; vm_compute; reflexivity]. assert (B : bnd (-51) (-50) hbar_ev) by (apply lit_bnd; vm_compute; reflexivity). set (x := hbar_ev) in *. clearbody x. destruct B as [O B]. split; [exact O|]. pose proof (bpow_le radix2 (-100) (-51) ltac:(lia)). pose proof (bpow_le radix2 (-50) 100 ltac:(lia)). lra.
Qed.

(** ** the corrected defects *)
(** the four particles the corrections know *)
Definition corrected_type (t : ptype) : bool := match t with Proton | Electron | Neutron | Photon => true | _ => false end.
Definition remap (f : sf -> sf) (t : ptype) (o : option (list sf)) : option (list sf) := if corrected_type t then option_map (map f) o else o.
Definition tun (fexp : sf -> sf) (c : crystal) (t : sf) := qtunnel fexp (c_barrier c) (proton_m c) hbar_ev t.
Definition zpc (c : crystal) (t : sf) := zpe hbar_ev (proton_m c) (c_const c) t.
Lemma entry_eq f m s t : correct_entry f m s t = if ptype_eqb t s then option_map (map f) (m t) else m t.
Proof. unfold correct_entry. destruct (m s) eqn:Q; unfold pset; destruct t, s; cbn [ptype_eqb]; try reflexivity; rewrite Q; reflexivity. Qed.
Lemma fold_eq p k z d t : let d' := fold_left (fun x s => correct_particle p k z s x) [Proton; Electron; Neutron; Photon] d in
  interst d' t = remap (correct_value (dq 12 10) (dq 8 10) p k z) t (interst d t) /\ vacs d' t = remap (correct_value (dq 4 10) (dq 6 10) p k z) t (vacs d t) /\ clus d' t = remap (correct_value (dq 8 10) (dq 8 10) p k z) t (clus d t).
Proof. cbv zeta. cbn [fold_left]. unfold correct_particle. cbn [interst vacs clus]. rewrite !entry_eq. destruct t; repeat split. Qed.
Lemma sim_eq fexp d c t f i cfg : is_double (c_const c) -> is_double f -> shouldApply t f i cfg = true ->
  correctSimulation fexp d c t f i cfg = Ret (fold_left (fun x s => correct_particle (tun fexp c t) (dq 1 1000) (zpc c t) s x) [Proton; Electron; Neutron; Photon] d).
Proof.
  intros C F A. unfold correctSimulation. rewrite A. cbn [negb]. unfold fieldCorrections. cbn [createQFTParameters i_q i_pot hbar q_spacing time_step getMass getCoupling masses couplings pset ptype_eqb obind].
  rewrite kg_least; [reflexivity|apply mul_V; [vm_compute; reflexivity|apply div_V; [exact C|reflexivity]]|apply div_V; [exact F|reflexivity]].
Qed.
(** a count: none, or between 2^-900 and 2^990 *)
Definition some_count (v : sf) : Prop := finite_double v /\ (R v = 0 \/ bpow radix2 (-900) <= R v <= bpow radix2 990).
Definition raised (v v' : sf) : Prop := finite_double v' /\ R v <= R v' <= 111 / 100 * R v.
Definition all_raised (o o' : option (list sf)) : Prop := match o, o' with Some l, Some l' => Forall2 raised l l' | None, None => True | _, _ => False end.
Definition counts_of (o : option (list sf)) : Prop := match o with Some l => Forall some_count l | None => True end.
Lemma coefs : coef (dq 12 10) /\ coef (dq 8 10) /\ coef (dq 4 10) /\ coef (dq 6 10) /\ R (dq 4 10) <= R (dq 8 10) <= R (dq 12 10) /\ R (dq 6 10) <= R (dq 8 10).
Proof. destruct n12_10, n8_10, n4_10, n6_10. unfold coef. split; [split; [assumption|lra]|]. split; [split; [assumption|lra]|]. split; [split; [assumption|lra]|]. split; [split; [assumption|lra]|lra]. Qed.
Lemma k_small : small5 (dq 1 1000). Proof. destruct lm as [O B]. split; [exact O|lra]. Qed.
Lemma tun_small fexp c t : exp_lib fexp -> is_double (c_barrier c) -> is_double t -> small5 (tun fexp c t).
Proof.
  intros X B T. unfold tun. assert (M : V64 (proton_m c) = true) by (unfold proton_m; destruct (c_type c); vm_compute; reflexivity). destruct l5 as [_ B5].
  destruct (tunnel_in fexp X (c_barrier c) (proton_m c) hbar_ev t) as [[O Q]|[Q|[Q|[Q|Q]]]]; [split; [exact O|lra]|unfold is_double in *; congruence|congruence|vm_compute in Q; discriminate Q|unfold is_double in *; congruence].
Qed.
Lemma hbar_bnd : bnd (-100) 100 hbar_ev. Proof. apply lit_bnd. vm_compute. reflexivity. Qed.
Lemma zpc_small c t : is_double (c_const c) -> is_double t -> small5 (zpc c t).
Proof.
  intros C T. unfold zpc. assert (M : V64 (proton_m c) = true) by (unfold proton_m; destruct (c_type c); vm_compute; reflexivity). destruct l5 as [_ B5]. destruct (zpe_range hbar_ev (proton_m c) (c_const c) t hbar_bnd M C T) as [O Q]. split; [exact O|lra].
Qed.
Lemma cf_of a b p k : coef a -> coef b -> R a + R b <= 2001 / 1000 -> small5 p -> small5 k -> cf (cfac a b p k).
Proof. intros A B S P K. destruct (cfac_range a b p k A B P K) as (O & Q & _). split; [exact O|lra]. Qed.
Lemma raised_of c z v : cf c -> small5 z -> some_count v -> raised v (cor c z v).
Proof.
  intros C Z [V B]. destruct (cor_range c z v C Z (conj V B)) as [O Q]. split; [exact O|]. destruct C as [_ C]. split; [lra|]. assert (P : 0 <= R v) by (pose proof (bpow_gt_0 radix2 (-900)); lra). apply Rle_trans with (1 := proj2 Q). nra.
Qed.
Lemma raised_list c z l : cf c -> small5 z -> Forall some_count l -> Forall2 raised l (map (cor c z) l).
Proof. intros C Z F. induction F; cbn [map]; constructor; [apply raised_of; assumption|assumption]. Qed.
Lemma raised_refl v : some_count v -> raised v v.
Proof. intros [V B]. split; [exact V|]. assert (0 <= R v) by (pose proof (bpow_gt_0 radix2 (-900)); lra). lra. Qed.
Lemma remap_raised c z t o f : cf c -> small5 z -> (forall v, f v = cor c z v) -> counts_of o -> all_raised o (remap f t o).
Proof.
  intros C Z E F. unfold remap. destruct (corrected_type t); destruct o as [l|]; cbn [option_map all_raised counts_of] in *; try exact I.
  - rewrite (map_ext _ _ E). apply raised_list; assumption.
  - induction F; constructor; [apply raised_refl; assumption|assumption].
Qed.

(** ** C457: no count falls, none rises by more than 11 %, and of equal counts the interstitials rise most and the vacancies least *)
Theorem C457_corrected_counts : forall fexp d c t f i cfg, exp_lib fexp -> is_double (c_barrier c) -> is_double (c_const c) -> is_double t -> is_double f ->
  exists d', correctSimulation fexp d c t f i cfg = Ret d' /\
  (forall q, counts_of (interst d q) -> all_raised (interst d q) (interst d' q)) /\
  (forall q, counts_of (vacs d q) -> all_raised (vacs d q) (vacs d' q)) /\
  (forall q, counts_of (clus d q) -> all_raised (clus d q) (clus d' q)) /\
  (forall q v li li' lv lv' lc lc' a b e, some_count v -> interst d q = Some li -> interst d' q = Some li' -> vacs d q = Some lv -> vacs d' q = Some lv' -> clus d q = Some lc -> clus d' q = Some lc' ->
     nth_error li a = Some v -> nth_error lv b = Some v -> nth_error lc e = Some v ->
     exists vi vv vc, nth_error li' a = Some vi /\ nth_error lv' b = Some vv /\ nth_error lc' e = Some vc /\ R vv <= R vc <= R vi).
Proof.
  intros fexp d c t f i cfg X B C T F. destruct (shouldApply t f i cfg) eqn:A.
  - rewrite (sim_eq fexp d c t f i cfg C F A). eexists. split; [reflexivity|]. set (d' := fold_left _ _ _). pose proof (fun q => fold_eq (tun fexp c t) (dq 1 1000) (zpc c t) d q) as Q. cbv zeta in Q. fold d' in Q. clearbody d'.
    pose proof (tun_small fexp c t X B T) as P. pose proof (zpc_small c t C T) as Z. pose proof k_small as K. destruct coefs as (C12 & C8 & C4 & C6 & O1 & O2). destruct n12_10 as [_ B12]. destruct n8_10 as [_ B8].
    pose proof (cf_of _ _ _ _ C12 C8 ltac:(lra) P K) as FI. pose proof (cf_of _ _ _ _ C4 C6 ltac:(lra) P K) as FV. pose proof (cf_of _ _ _ _ C8 C8 ltac:(lra) P K) as FC.
    pose proof (cfac_mono _ _ _ _ _ _ C4 C6 C8 C8 P K ltac:(lra) ltac:(lra)) as M1. pose proof (cfac_mono _ _ _ _ _ _ C8 C8 C12 C8 P K ltac:(lra) ltac:(lra)) as M2.
    split; [intros q H; rewrite (proj1 (Q q)); apply (remap_raised _ _ q _ _ FI Z); [intros v; apply cor_eq|exact H]|].
    split; [intros q H; rewrite (proj1 (proj2 (Q q))); apply (remap_raised _ _ q _ _ FV Z); [intros v; apply cor_eq|exact H]|].
    split; [intros q H; rewrite (proj2 (proj2 (Q q))); apply (remap_raised _ _ q _ _ FC Z); [intros v; apply cor_eq|exact H]|].
    intros q v li li' lv lv' lc lc' a b e CV HI HI' HV HV' HC HC' NI NV NC. destruct (Q q) as (Q1 & Q2 & Q3). rewrite HI, HI' in Q1. rewrite HV, HV' in Q2. rewrite HC, HC' in Q3. unfold remap in *. destruct (corrected_type q).
    + cbn [option_map] in *. injection Q1 as ->. injection Q2 as ->. injection Q3 as ->. exists (cor (cfac (dq 12 10) (dq 8 10) (tun fexp c t) (dq 1 1000)) (zpc c t) v), (cor (cfac (dq 4 10) (dq 6 10) (tun fexp c t) (dq 1 1000)) (zpc c t) v), (cor (cfac (dq 8 10) (dq 8 10) (tun fexp c t) (dq 1 1000)) (zpc c t) v).
      rewrite !nth_error_map, NI, NV, NC. cbn [option_map]. rewrite !cor_eq. split; [reflexivity|]. split; [reflexivity|]. split; [reflexivity|]. pose proof (count_nb v CV) as VN. split; [apply (cor_mono _ _ _ _ FV FC Z VN M1)|apply (cor_mono _ _ _ _ FC FI Z VN M2)].
    + injection Q1 as ->. injection Q2 as ->. injection Q3 as ->. exists v, v, v. split; [exact NI|]. split; [exact NV|]. split; [exact NC|lra].
  - exists d. unfold correctSimulation. rewrite A. split; [reflexivity|].
    assert (RR : forall o, counts_of o -> all_raised o o). { intros [l|] H; cbn [counts_of all_raised] in *; [|exact I]. induction H; constructor; [apply raised_refl; assumption|assumption]. }
    split; [intros; apply RR; assumption|]. split; [intros; apply RR; assumption|]. split; [intros; apply RR; assumption|].
    intros q v li li' lv lv' lc lc' a b e CV HI HI' HV HV' HC HC' NI NV NC. rewrite HI in HI'. injection HI' as <-. rewrite HV in HV'. injection HV' as <-. rewrite HC in HC'. injection HC' as <-. exists v, v, v. split; [exact NI|]. split; [exact NV|]. split; [exact NC|lra].
Qed.
Definition first_of (m : pmap (list sf)) (t : ptype) : sf := match m t with Some (x :: _) => x | _ => d0 end.
Example C457_nonvacuous : exp_lib stair_exp /\ some_count (dofZ 100) /\ shouldApply (dofZ 100) (dofZ 10) d0 default_qconfig = true /\
  match correctSimulation stair_exp sample_defects sample_crystal (dofZ 100) (dofZ 10) d0 default_qconfig with
  | Ret d => flt (dofZ 100) (first_of (vacs d) Proton) && flt (first_of (vacs d) Proton) (first_of (clus d) Proton) && flt (first_of (clus d) Proton) (first_of (interst d) Proton) = true
  | _ => False end.
Proof.
  split; [exact stair_ok|]. split; [|split; vm_compute; reflexivity]. destruct (ofZ_ex 100 ltac:(lia)) as [O E]. split; [exact O|right]. rewrite E. pose proof (bpow_le radix2 (-900) 0 ltac:(lia)). pose proof (bpow_le radix2 7 990 ltac:(lia)). change (bpow radix2 0) with 1 in *. change (bpow radix2 7) with 128 in *. lra.
Qed.

(** ** C458: the feature size *)
(** smaller features never change what the corrections do, although the size is passed in as the lattice spacing of the Klein-Gordon equation *)
Theorem C458_size_effect_refuted : forall fexp d c t i i' cfg cfg' f f', is_double (c_const c) -> is_double f -> is_double f' ->
  shouldApply t f i cfg = true -> shouldApply t f' i' cfg' = true ->
  correctSimulation fexp d c t f i cfg = correctSimulation fexp d c t f' i' cfg'.
Proof. intros fexp d c t i i' cfg cfg' f f' C F F' A A'. rewrite (sim_eq fexp d c t f i cfg C F A), (sim_eq fexp d c t f' i' cfg' C F' A'). reflexivity. Qed.
(** it only has its part in the decision; it, the intensity and the configuration matter in no other way *)
Theorem C458_decides_only_partial : forall fexp d c t i i' cfg cfg' f f', is_double (c_const c) -> is_double f -> is_double f' ->
  shouldApply t f i cfg = shouldApply t f' i' cfg' -> correctSimulation fexp d c t f i cfg = correctSimulation fexp d c t f' i' cfg'.
Proof.
  intros fexp d c t i i' cfg cfg' f f' C F F' A. destruct (shouldApply t f i cfg) eqn:Q; [symmetry in A; apply C458_size_effect_refuted; assumption|]. unfold correctSimulation. rewrite Q, <- A. reflexivity.
Qed.
Example C458_nonvacuous : shouldApply (dofZ 100) (dofZ 10) d0 default_qconfig = true /\ shouldApply (dofZ 100) (dq 1 100) d0 default_qconfig = true /\ dofZ 10 <> dq 1 100 /\
  match correctSimulation stair_exp sample_defects sample_crystal (dofZ 100) (dofZ 10) d0 default_qconfig with Ret d => flt (dofZ 100) (first_of (interst d) Proton) = true | _ => False end.
Proof. split; [vm_compute; reflexivity|]. split; [vm_compute; reflexivity|]. split; [vm_compute; discriminate|vm_compute; reflexivity]. Qed.

(** ** C459: which defects are corrected *)
(** defects of heavy ions, positrons, muons and neutrinos are never corrected *)
Theorem C459_all_types_refuted : exists fexp d c t f i cfg d', exp_lib fexp /\ shouldApply t f i cfg = true /\ correctSimulation fexp d c t f i cfg = Ret d' /\
  interst d HeavyIon = Some [dofZ 9] /\ interst d' HeavyIon = Some [dofZ 9] /\ interst d' Proton <> interst d Proton.
Proof.
  exists stair_exp, sample_defects, sample_crystal, (dofZ 100), (dofZ 10), d0, default_qconfig. eexists. split; [exact stair_ok|]. split; [vm_compute; reflexivity|]. split; [unfold correctSimulation; assert (Q : shouldApply (dofZ 100) (dofZ 10) d0 default_qconfig = true) by (vm_compute; reflexivity); rewrite Q; reflexivity|].
  split; [reflexivity|]. split; [reflexivity|]. intros H. assert (G : forall o : option (list sf), o = interst sample_defects Proton -> match o with Some (x :: _) => flt (dofZ 100) x = false | _ => True end) by (intros o ->; vm_compute; reflexivity). apply G in H. vm_compute in H. discriminate H.
Qed.
(** applied, each list of a proton, electron, neutron or photon keeps its length and order, each value corrected by itself, in the same way for equal values, and nothing else changes *)
Theorem C459_scope_partial : forall fexp d c t f i cfg, shouldApply t f i cfg = true -> exists d' gi gv gc, correctSimulation fexp d c t f i cfg = Ret d' /\
  (forall q, In q [Proton; Electron; Neutron; Photon] -> interst d' q = option_map (map gi) (interst d q) /\ vacs d' q = option_map (map gv) (vacs d q) /\ clus d' q = option_map (map gc) (clus d q)) /\
  (forall q, ~ In q [Proton; Electron; Neutron; Photon] -> entries d' q = entries d q) /\
  (forall d2, exists d2', correctSimulation fexp d2 c t f i cfg = Ret d2' /\ forall q, In q [Proton; Electron; Neutron; Photon] -> interst d2' q = option_map (map gi) (interst d2 q) /\ vacs d2' q = option_map (map gv) (vacs d2 q) /\ clus d2' q = option_map (map gc) (clus d2 q)).
Proof.
  intros fexp d c t f i cfg A. unfold correctSimulation. rewrite A. cbn [negb]. unfold fieldCorrections. cbn [createQFTParameters i_q i_pot hbar q_spacing time_step getMass getCoupling masses couplings pset ptype_eqb obind].
  set (p := qtunnel _ _ _ _ _). set (k := kg_correction _ _ _ _ _ _). set (z := zpe _ _ _ _). clearbody p k z.
  assert (Q : forall d q, In q [Proton; Electron; Neutron; Photon] -> let d' := fold_left (fun x s => correct_particle p k z s x) [Proton; Electron; Neutron; Photon] d in
    interst d' q = option_map (map (correct_value (dq 12 10) (dq 8 10) p k z)) (interst d q) /\ vacs d' q = option_map (map (correct_value (dq 4 10) (dq 6 10) p k z)) (vacs d q) /\ clus d' q = option_map (map (correct_value (dq 8 10) (dq 8 10) p k z)) (clus d q)).
  { intros e q I. pose proof (fold_eq p k z e q) as G. cbv zeta in G |- *. destruct G as (-> & -> & ->). unfold remap. destruct I as [<-|[<-|[<-|[<-|[]]]]]; repeat split. }
  exists (fold_left (fun x s => correct_particle p k z s x) [Proton; Electron; Neutron; Photon] d), (correct_value (dq 12 10) (dq 8 10) p k z), (correct_value (dq 4 10) (dq 6 10) p k z), (correct_value (dq 8 10) (dq 8 10) p k z).
  split; [reflexivity|]. split; [intros q I; apply (Q d q I)|]. split.
  - intros q N. unfold entries. pose proof (fold_eq p k z d q) as G. cbv zeta in G. destruct G as (-> & -> & ->). unfold remap. destruct q; cbn [corrected_type]; try reflexivity; exfalso; apply N; cbn [In]; auto 6.
  - intros d2. eexists. split; [reflexivity|]. intros q I. apply (Q d2 q I).
Qed.
Example C459_nonvacuous : shouldApply (dofZ 100) (dofZ 10) d0 default_qconfig = true /\ interst sample_defects HeavyIon = Some [dofZ 9].
Proof. split; [vm_compute; reflexivity|reflexivity]. Qed.

(** ** C460: the parameters a crystal and a feature size give *)
(** relative distance at most 1e-9 *)
Definition about (x : sf) (v : Rdefinitions.R) : Prop := finite_double x /\ Rabs (R x - v) <= / 1000000000 * v.
Lemma near_about i x v : okd x -> near i x v -> (0 <= i <= 1000)%Z -> about x v.
Proof. intros O [P H] I. split; [exact O|]. assert (0 <= IZR i <= 1000) by (split; apply IZR_le; lia). apply Rabs_le. unfold u12 in *. nra. Qed.
Ltac litnear := match goal with |- near 1 ?x _ => let y := eval vm_compute in x in let H := fresh in assert (H : x = y) by (vm_compute; reflexivity); apply lit_near; [apply lit_bnd; vm_compute; reflexivity|]; rewrite H, fin_R; cbn [cond_Zopp]; unfold u12; match goal with |- context [bpow radix2 ?e] => let v := eval vm_compute in (2 ^ (- e))%Z in change (bpow radix2 e) with (/ IZR v) end; apply Rabs_le; lra end.
Lemma e_share : near 1 (dq 5 10000) (5 / 10000).
Proof. split; [lra|]. let y := eval vm_compute in (dq 5 10000) in assert (H : dq 5 10000 = y) by (vm_compute; reflexivity). rewrite H, fin_R. cbn [cond_Zopp]. unfold u12. match goal with |- context [bpow radix2 ?e] => let v := eval vm_compute in (2 ^ (- e))%Z in change (bpow radix2 e) with (/ IZR v) end. lra. Qed.
Lemma pm_bnd c : bnd (-110) (-90) (proton_m c). Proof. unfold proton_m. destruct (c_type c); apply lit_bnd; vm_compute; reflexivity. Qed.
Theorem C460_parameters : forall c f, exists m,
  let q := i_q (createQFTParameters c f) in
  getMass q Proton = Ret m /\ 0 < R m /\
  (exists me, getMass q Electron = Ret me /\ about me (5 / 10000 * R m)) /\
  (exists mn, getMass q Neutron = Ret mn /\ about mn (1001 / 1000 * R m)) /\
  (exists mp, getMass q Photon = Ret mp /\ 0 < R mp /\ R mp <= R m / 50) /\
  (forall c2 m2, getMass (i_q (createQFTParameters c2 f)) Proton = Ret m2 -> (c_type c = DIAMOND /\ c_type c2 <> DIAMOND \/ c_type c = FCC /\ c_type c2 = BCC) -> R m < R m2) /\
  (moderate (c_const c) -> exists g ge gn gp, getCoupling q Proton = Ret g /\ getCoupling q Electron = Ret ge /\ getCoupling q Neutron = Ret gn /\ getCoupling q Photon = Ret gp /\
     about g (1 / 10 * (R (c_const c) / 5)) /\ about ge (12 / 10 * R g) /\ about gn (8 / 10 * R g) /\ about gp (15 / 10 * R g)) /\
  (moderate f -> about (q_spacing q) (R f / 100)) /\
  (forall t, ~ In t [Proton; Electron; Neutron; Photon] -> getMass q t = Throw E_runtime_error /\ getCoupling q t = Throw E_runtime_error).
Proof.
  intros c f. exists (proton_m c). cbv zeta. cbn [createQFTParameters i_q getMass getCoupling masses couplings pset ptype_eqb q_spacing]. pose proof (pm_bnd c) as BM. pose proof (bnd_pos _ _ _ BM) as PM. pose proof (near_self _ _ _ BM) as NM.
  split; [reflexivity|]. split; [exact PM|].
  split. { eexists. split; [reflexivity|]. assert (B : bnd (-11) (-10) (dq 5 10000)) by (apply lit_bnd; vm_compute; reflexivity). pose proof e_share as N. set (x := dq 5 10000) in *. clearbody x. destruct (near_mul 0 1 _ _ _ _ _ _ _ _ BM B NM N) as [B1 N1]; try lia. rewrite (Rmult_comm (5 / 10000)). apply (near_about _ _ _ (proj1 B1) N1). lia. }
  split. { eexists. split; [reflexivity|]. assert (B : bnd 0 1 (dq 1001 1000)) by (apply lit_bnd; vm_compute; reflexivity). assert (N : near 1 (dq 1001 1000) (1001 / 1000)) by litnear. set (x := dq 1001 1000) in *. clearbody x. destruct (near_mul 0 1 _ _ _ _ _ _ _ _ BM B NM N) as [B1 N1]; try lia. rewrite (Rmult_comm (1001 / 1000)). apply (near_about _ _ _ (proj1 B1) N1). lia. }
  split. { eexists. split; [reflexivity|]. assert (B : bnd (-107) (-106) (dq 1 (10 ^ 32)%positive)) by (apply lit_bnd; vm_compute; reflexivity). assert (B2 : bnd (-100) (-99) (proton_m c)) by (unfold proton_m; destruct (c_type c); apply lit_bnd; vm_compute; reflexivity). set (x := dq 1 (10 ^ 32)%positive) in *. set (y := proton_m c) in *. clearbody x y. split; [exact (bnd_pos _ _ _ B)|]. destruct B as [_ [_ B]]. destruct B2 as [_ [B2 _]]. replace (bpow radix2 (-106)) with (bpow radix2 (-100) * / 64) in B by (change (/ 64) with (bpow radix2 (-6)); rewrite <- bpow_plus; reflexivity). lra. }
  split. { intros c2 m2 Q H. injection Q as <-. assert (O : forall k, okd (proton_m k)) by (intros k; apply (pm_bnd k)). apply (flt_d _ _ (O c) (O c2)). unfold proton_m. destruct H as [[-> N]|[-> ->]]; [destruct (c_type c2); try congruence|]; vm_compute; reflexivity. }
  split. { intros MA. pose proof (moderate_bnd _ MA) as BA. pose proof (near_self _ _ _ BA) as NA. destruct (ofZ_ex 5 ltac:(lia)) as [O5 E5]. assert (B5 : bnd 2 3 (dofZ 5)) by (apply lit_bnd; vm_compute; reflexivity). assert (N5 : near 1 (dofZ 5) 5) by (split; [lra|]; rewrite E5; unfold u12; lra).
    destruct (near_div 0 1 _ _ _ _ _ _ _ _ BA B5 NA N5) as [B1 N1]; try lia. assert (BT : bnd (-4) (-3) (dq 1 10)) by (apply lit_bnd; vm_compute; reflexivity). assert (NT : near 1 (dq 1 10) (1 / 10)) by litnear. destruct (near_mul 1 _ _ _ _ _ _ _ _ _ BT B1 NT N1) as [B2 N2]; try lia.
    set (g := dmul (dq 1 10) (ddiv (c_const c) (dofZ 5))) in *. exists g. do 3 eexists. split; [reflexivity|]. split; [reflexivity|]. split; [reflexivity|]. split; [reflexivity|]. split; [apply (near_about _ _ _ (proj1 B2) N2); lia|]. pose proof (near_self _ _ _ B2) as NG. clearbody g.
    assert (K : forall x p r, bnd (-1) 1 x -> near 1 x (IZR p / IZR r) -> about (dmul g x) (IZR p / IZR r * R g)). { intros x p r BX NX. destruct (near_mul 0 1 _ _ _ _ _ _ _ _ B2 BX NG NX) as [B3 N3]; try lia. rewrite (Rmult_comm (IZR p / IZR r)). apply (near_about _ _ _ (proj1 B3) N3). lia. }
    split; [apply (K (dq 12 10) 12%Z 10%Z); [apply lit_bnd; vm_compute; reflexivity|litnear]|]. split; [apply (K (dq 8 10) 8%Z 10%Z); [apply lit_bnd; vm_compute; reflexivity|litnear]|]. apply (K (dq 15 10) 15%Z 10%Z); [apply lit_bnd; vm_compute; reflexivity|litnear]. }
  split. { intros MF. pose proof (moderate_bnd _ MF) as BF. pose proof (near_self _ _ _ BF) as NF. destruct (ofZ_ex 100 ltac:(lia)) as [O1 E1]. assert (B1 : bnd 6 7 (dofZ 100)) by (apply lit_bnd; vm_compute; reflexivity). assert (N1 : near 1 (dofZ 100) 100) by (split; [lra|]; rewrite E1; unfold u12; lra). set (h := dofZ 100) in *. clearbody h. destruct (near_div 0 1 _ _ _ _ _ _ _ _ BF B1 NF N1) as [B2 N2]; try lia. apply (near_about _ _ _ (proj1 B2) N2). lia. }
  intros t N. destruct t; try (exfalso; apply N; cbn [In]; auto 6; fail); split; reflexivity.
Qed.
Example C460_nonvacuous : moderate (dofZ 5) /\ moderate (dofZ 65) /\ (exists m, getMass (i_q (createQFTParameters sample_crystal (dofZ 65))) Proton = Ret m).
Proof.
  assert (G : forall n, (1 <= n <= 1000)%Z -> moderate (dofZ n)). { intros n N. destruct (ofZ_ex n ltac:(lia)) as [O E]. split; [exact O|]. rewrite E. assert (1 <= IZR n <= 1000) by (split; apply IZR_le; lia). lra. }
  split; [apply G; lia|]. split; [apply G; lia|]. eexists. reflexivity.
Qed.
Print Assumptions C452_gate.
Print Assumptions C453_caps_refuted.
Print Assumptions C453_enhancement_partial.
Print Assumptions C454_tunnelling.
Print Assumptions C455_klein_gordon.
Print Assumptions C456_zero_point.
Print Assumptions C457_corrected_counts.
Print Assumptions C458_size_effect_refuted.
Print Assumptions C458_decides_only_partial.
Print Assumptions C459_all_types_refuted.
Print Assumptions C459_scope_partial.
Print Assumptions C460_parameters.
