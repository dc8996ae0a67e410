(** Properties C380-C397: tunnelling, corrections, cascades, device upsets and radiation applied to memory. *)
From Coq Require Import List NArith ZArith Bool Arith Lia Reals Lra Psatz SpecFloat.
Import ListNotations.
From Flocq Require Import Core BinarySingleNaN.
From Verif Require Import Outcome Words Floats FloatsR HealthFloat Bits_Model RMA3_Proofs Tester3_Proofs Hw_Proofs Hw2_Proofs Qft_Model Qft_Spec Qft2_Proofs Qft4_Proofs Qft5_Proofs Qft6_Proofs Qft7_Proofs Qft8_Proofs Qft9_Proofs Qer_Spec Qer_Proofs Qer2_Proofs Qer3_Proofs Qer4_Proofs Qer5_Proofs Qer6_Proofs Qer7_Proofs Qer8_Proofs.
Local Open Scope R_scope.

Lemma nonneg_nneg x : nonneg_double x <-> nneg x.
Proof.
  assert (DZ : dbl d0) by (apply okd_dbl, z_ok). split.
  - intros [V L]. assert (D : dbl x) by (split; [exact V|intros ->; discriminate L]). split; [exact D|]. apply (leE _ _ DZ D) in L. rewrite E0 in L. exact L.
  - intros [D P]. split; [apply D|]. apply (leE _ _ DZ D). rewrite E0. exact P.
Qed.
Lemma lit_mod x : litb (-20) 20 x = true -> moderate x.
Proof. intros H. destruct (lit_bnd _ _ _ H) as [O B]. split; [exact O|]. change (b2 (-20)) with (/ 1048576) in B. change (b2 20) with 1048576 in B. exact B. Qed.

(** ** C380: the tunnelling probability is a probability *)
Theorem C380_tunneling_refuted : forall fexp, exp_lib fexp -> exp_overflow fexp -> tunneling fexp (dq 112 100) proton_mass hbar_ev (dofZ (-1)) = S754_nan.
Proof. intros fexp X OV. exact (tunnel_cold fexp X OV). Qed.
Theorem C380_tunneling_partial : forall fexp barrier mass hb temp, exp_lib fexp -> positive_double barrier -> positive_double mass -> positive_double hb -> temp = d0 \/ positive_double temp ->
  between 0 1 (tunneling fexp barrier mass hb temp).
Proof. intros fexp b m h t X B M H T. apply (tunnel_range fexp X); [exact (positive_bnd _ B)|exact (positive_bnd _ M)|exact (positive_bnd _ H)|]. destruct T as [->|T]; [left; reflexivity|right; exact (positive_bnd _ T)]. Qed.
Example C380_nonvacuous : exp_lib one_exp /\ exp_overflow one_exp /\ positive_double (dq 112 100) /\ positive_double proton_mass /\ positive_double hbar_ev /\ positive_double (dofZ 300) /\
  tunneling one_exp (dq 112 100) proton_mass hbar_ev (dofZ 300) = d1.
Proof.
  assert (PB : forall x, litb (-300) 300 x = true -> positive_double x) by (intros x H; apply lit_bnd in H; exact H).
  split; [exact one_exp_ok|]. split; [exact one_exp_overflow|]. split; [apply PB; vm_compute; reflexivity|]. split; [apply PB; vm_compute; reflexivity|]. split; [apply PB; vm_compute; reflexivity|]. split; [apply PB; vm_compute; reflexivity|vm_compute; reflexivity].
Qed.

(** ** C381: the guards of the tunnelling probability *)
Theorem C381_guards : forall fexp barrier temp q,
  (forall mass hb, fle barrier d0 = true \/ fle mass d0 = true \/ fle hb d0 = true -> tunneling fexp barrier mass hb temp = d0) /\
  (forall t, masses q t = None -> tunneling_for fexp barrier temp q t = Throw E_runtime_error) /\
  (forall t mass, masses q t = Some mass -> tunneling_for fexp barrier temp q t = Ret (tunneling fexp barrier mass (hbar q) temp)).
Proof.
  intros fexp b temp q. split; [|split].
  - intros mass hb H. unfold tunneling. cbv zeta. assert (G : fle b d0 || fle mass d0 || fle hb d0 = true) by (destruct H as [->|[->| ->]]; rewrite ?orb_true_r; reflexivity). rewrite G. reflexivity.
  - intros t H. unfold tunneling_for, getMass. rewrite H. reflexivity.
  - intros t mass H. unfold tunneling_for, getMass. rewrite H. reflexivity.
Qed.
Example C381_nonvacuous : fle (dofZ (-3)) d0 = true /\ masses default_qparams Muon = None /\ masses default_qparams Neutron <> None /\
  tunneling one_exp (dofZ (-3)) d1 d1 d1 = d0 /\ tunneling one_exp d1 d1 d1 d1 = d1.
Proof. split; [vm_compute; reflexivity|]. split; [reflexivity|]. split; [discriminate|]. split; vm_compute; reflexivity. Qed.

(** ** C382: the critical charge stays between half the base charge and its linear temperature law *)
Theorem C382_critical : forall fexp m base temp, exp_lib fexp -> physical m -> moderate base -> kelvin temp ->
  between (R base / 2) (R base * (71 / 100 + R temp / 1000) * (1 + / 100000000)) (criticalCharge fexp m base temp).
Proof. intros fexp m base temp X PM B T. destruct (crit_range fexp X m base temp (moderate_bnd _ (phys_gap m PM)) (bnd_weak _ _ (-24) 24 _ (moderate_bnd _ B) ltac:(lia) ltac:(lia)) (kelvin_warm _ T)) as [[O _] H]. split; assumption. Qed.
Example C382_nonvacuous : physical silicon /\ moderate (dofZ 15) /\ kelvin (dofZ 300) /\ kelvin d0.
Proof. split; [exact silicon_phys|]. split; [apply lit_mod; vm_compute; reflexivity|]. split; [right; apply lit_mod; vm_compute; reflexivity|left; reflexivity]. Qed.

(** ** C383: the bit flip probability is a probability *)
Theorem C383_flip : forall fexp fpow2 m dev temp, exp_lib fexp -> pow2_lib fpow2 -> physical m -> kelvin temp ->
  (forall charge, is_double charge -> charge <> S754_nan -> between 0 1 (bitFlipProbability fexp fpow2 m charge dev temp)) /\
  (forall charge, fle charge d0 = true -> bitFlipProbability fexp fpow2 m charge dev temp = d0).
Proof.
  intros fexp fpow2 m dev temp X P PM T. split.
  - intros c V N. apply (flip_range fexp fpow2 X P); [apply moderate_bnd, (phys_gap m PM)|apply moderate_bnd, (phys_crit m PM)|exact (kelvin_warm _ T)|split; assumption].
  - intros c H. apply flip_zero. exact H.
Qed.
Example C383_nonvacuous : exp_lib one_exp /\ pow2_lib square /\ bitFlipProbability step_exp square silicon (dofZ 30) DRAM (dofZ 300) = dq 3 8.
Proof. split; [exact one_exp_ok|]. split; [apply square_ok|]. vm_compute. reflexivity. Qed.

(** ** C384: more charge means a likelier flip *)
Theorem C384_monotone_refuted : forall fexp fpow2, exp_lib fexp -> pow2_lib fpow2 -> exists m c1 c2, physical m /\ moderate c1 /\ moderate c2 /\ flt c1 c2 = true /\
  flt (bitFlipProbability fexp fpow2 m c2 SRAM_6T (dofZ 300)) (bitFlipProbability fexp fpow2 m c1 SRAM_6T (dofZ 300)) = true.
Proof. intros fexp fpow2 X P. destruct (flip_dip fexp fpow2 X P) as (c1 & c2 & A & B & C & D). exists narrow_gap, c1, c2. split; [exact narrow_phys|]. exact (conj A (conj B (conj C D))). Qed.
Theorem C384_monotone_partial : forall fexp fpow2 m c1 c2 dev temp, exp_lib fexp -> lib_mono fexp -> pow2_lib fpow2 -> pow2_grows fpow2 -> physical m -> kelvin temp ->
  is_double c1 -> is_double c2 -> fle c1 c2 = true ->
  fle c1 d0 = true \/ flt (ddiv c1 (criticalCharge fexp m (dmul (crit_fc m) (device_factor dev)) temp)) (dq 1 10) = false ->
  fle (bitFlipProbability fexp fpow2 m c1 dev temp) (bitFlipProbability fexp fpow2 m c2 dev temp) = true.
Proof.
  intros fexp fpow2 m c1 c2 dev temp X XM P PG PM T V1 V2 L H.
  assert (N1 : c1 <> S754_nan) by (intros ->; discriminate L). assert (N2 : c2 <> S754_nan) by (intros ->; destruct c1 as [|[]| |[]]; discriminate L).
  assert (D1 : dbl c1) by (split; assumption). assert (D2 : dbl c2) by (split; assumption). pose proof (moderate_bnd _ (phys_gap m PM)) as G. pose proof (moderate_bnd _ (phys_crit m PM)) as C. pose proof (kelvin_warm _ T) as W.
  apply (fle_d _ _ (proj1 (flip_range fexp fpow2 X P m c1 dev temp G C W D1)) (proj1 (flip_range fexp fpow2 X P m c2 dev temp G C W D2))).
  apply (leE _ _ D1 D2) in L. exact (flip_mono fexp fpow2 X P m c1 c2 dev temp XM PG G C W D1 D2 L (proj1 (or_comm _ _) H)).
Qed.
Example C384_nonvacuous : lib_mono one_exp /\ pow2_grows square /\ flt (ddiv (dofZ 5) (criticalCharge one_exp silicon (dmul (crit_fc silicon) (device_factor SRAM_6T)) (dofZ 300))) (dq 1 10) = false.
Proof. split; [exact one_exp_mono|]. split; [apply square_ok|]. vm_compute. reflexivity. Qed.

(** ** C385: a multi-bit upset has 1 to 8 bits, in proportion to the charge *)
Theorem C385_upset_refuted : (forall t, mbuSize silicon (dofZ (15 * 2 ^ 33)) t = UB UB_float_to_int) /\ (forall m t, physical m -> mbuSize m (S754_infinity false) t = UB UB_float_to_int).
Proof.
  split.
  - intros t. destruct t; vm_compute; reflexivity.
  - intros m t PM. pose proof (moderate_bnd _ (phys_crit m PM)) as C. destruct (twice_exact _ C) as [TB _]. unfold mbuSize. cbv zeta. destruct (bnd_shape _ _ _ TB) as (mm & e & ->). destruct (bnd_shape _ _ _ (proj1 (clust_bnd t))) as (m2 & e2 & ->). reflexivity.
Qed.
Lemma clust_near t : near 1 (clustering t) (cluster_rate t).
Proof.
  assert (N12 : near 1 (dq 12 10) (12 / 10)) by litnear. assert (N15 : near 1 (dq 15 10) (15 / 10)) by litnear.
  assert (NZ : forall z : Z, (0 < z <= 3)%Z -> near 1 (dofZ z) (IZR z)). { intros z Hz. destruct (ofZ_ex z ltac:(lia)) as [_ E1]. assert (IZR 1 <= IZR z) by (apply IZR_le; lia). split; [lra|]. rewrite E1. unfold u12. lra. }
  destruct t; cbn [clustering cluster_rate]; first [exact N12|exact N15|exact (NZ 1%Z ltac:(lia))|exact (NZ 3%Z ltac:(lia))].
Qed.
Theorem C385_upset_partial : forall m charge t, physical m -> finite_double charge -> R charge <= 1073741824 * R (crit_fc m) ->
  exists k, mbuSize m charge t = Ret k /\ (1 <= k <= 8)%N /\
    (R charge < 2 * R (crit_fc m) -> k = 1%N) /\
    (2 * R (crit_fc m) <= R charge -> exists a, Rabs (a - R charge / (2 * R (crit_fc m)) * cluster_rate t) <= R charge / (2 * R (crit_fc m)) * cluster_rate t * / 100000000000 /\ k = N.min 8 (Z.to_N (Zceil a))).
Proof.
  intros m q t PM O U. pose proof (moderate_bnd _ (phys_crit m PM)) as C. destruct (mbu_range m q t C O U) as (k & K1 & K2 & K3). exists k. split; [exact K1|]. split; [exact K2|]. split; [exact K3|].
  intros L. destruct (mbu_large m q t C O (conj L U)) as [M1 _]. rewrite K1 in M1. injection M1 as ->. exists (R (mbu_arg m q t)). split; [|reflexivity].
  destruct (twice_exact _ C) as [TB TE]. pose proof (bnd_pos _ _ _ C) as CP. assert (QB : bnd (-19) 50 q). { split; [exact O|]. destruct C as [_ [C1 C2]]. change (b2 (-20)) with (/ 1048576) in C1. change (b2 20) with 1048576 in C2. change (b2 (-19)) with (/ 524288). change (b2 50) with 1125899906842624. lra. }
  pose proof (near_self _ _ _ QB) as NQ. pose proof (near_self _ _ _ TB) as NT. rewrite TE in NT. destruct (near_div 0 0 _ _ _ _ _ _ _ _ QB TB NQ NT) as [B1 N1]; try lia.
  destruct (near_mul 2 1 _ _ _ _ _ _ _ _ B1 (proj1 (clust_bnd t)) N1 (clust_near t)) as [_ [P N2]]; try lia. fold (mbu_arg m q t) in N2. change (IZR (2 + 1 + 1)) with 4 in N2. set (v := R q / (2 * R (crit_fc m)) * cluster_rate t) in *. unfold u12 in N2. apply Rabs_le. lra.
Qed.
Example C385_nonvacuous : physical silicon /\ finite_double (dofZ 45) /\ R (crit_fc silicon) = 15 /\ R (dofZ 45) = 45 /\ mbuSize silicon (dofZ 45) Proton = Ret 2%N /\ mbuSize silicon (dofZ 45) HeavyIon = Ret 5%N.
Proof. split; [exact silicon_phys|]. split; [split; vm_compute; reflexivity|]. split; [apply (ofZ_ex 15); lia|]. split; [apply (ofZ_ex 45); lia|]. split; vm_compute; reflexivity. Qed.

(** ** C386: the upset grows with the charge, and is largest for heavy ions *)
Theorem C386_upset_order : forall m c1 c2 t, physical m -> finite_double c1 -> finite_double c2 -> R c1 <= R c2 <= 1073741824 * R (crit_fc m) ->
  exists k1 k2 h, mbuSize m c1 t = Ret k1 /\ mbuSize m c2 t = Ret k2 /\ (k1 <= k2)%N /\ mbuSize m c1 HeavyIon = Ret h /\ (k1 <= h)%N.
Proof.
  intros m c1 c2 t PM O1 O2 [L U]. pose proof (moderate_bnd _ (phys_crit m PM)) as C. pose proof (bnd_pos _ _ _ C) as CP.
  destruct (mbu_range m c1 t C O1 ltac:(lra)) as (k1 & K1 & B1 & S1). destruct (mbu_range m c2 t C O2 U) as (k2 & K2 & B2 & S2). destruct (mbu_range m c1 HeavyIon C O1 ltac:(lra)) as (h & K3 & B3 & S3).
  exists k1, k2, h. split; [exact K1|]. split; [exact K2|]. destruct (Rlt_or_le (R c1) (2 * R (crit_fc m))) as [Q|Q]; [rewrite (S1 Q); split; [lia|]; split; [exact K3|lia]|].
  destruct (mbu_large m c1 t C O1 ltac:(lra)) as [M1 G1]. destruct (mbu_large m c2 t C O2 ltac:(lra)) as [M2 G2]. destruct (mbu_large m c1 HeavyIon C O1 ltac:(lra)) as [M3 G3].
  rewrite K1 in M1. rewrite K2 in M2. rewrite K3 in M3. injection M1 as ->. injection M2 as ->. injection M3 as ->.
  pose proof (Zceil_le _ _ (arg_mono m c1 c2 t C O1 O2 Q L U)) as A1. pose proof (Zceil_le _ _ (arg_ion m c1 t C O1 ltac:(lra))) as A2. split; [lia|]. split; [exact K3|lia].
Qed.
Example C386_nonvacuous : physical silicon /\ finite_double (dofZ 45) /\ finite_double (dofZ 90) /\ R (dofZ 45) <= R (dofZ 90) <= 1073741824 * R (crit_fc silicon).
Proof. split; [exact silicon_phys|]. split; [split; vm_compute; reflexivity|]. split; [split; vm_compute; reflexivity|]. rewrite (proj2 (ofZ_ex 45 ltac:(lia))), (proj2 (ofZ_ex 90 ltac:(lia))). change (crit_fc silicon) with (dofZ 15). rewrite (proj2 (ofZ_ex 15 ltac:(lia))). lra. Qed.

(** ** C387: deposited charge *)
Theorem C387_charge_refuted : forall fexp m letv t energy energy', chargeDeposition fexp m energy letv t = chargeDeposition fexp m energy' letv t.
Proof. reflexivity. Qed.
Theorem C387_charge_partial : forall fexp m energy letv t, exp_lib fexp ->
  ((t = Positron \/ t = Muon \/ t = Neutrino) -> chargeDeposition fexp m energy letv t = Throw E_runtime_error) /\
  (t <> Positron -> t <> Muon -> t <> Neutrino -> physical m -> kelvin letv ->
     exists q, chargeDeposition fexp m energy letv t = Ret q /\ between (249 / 1000 * R letv) (most_charge m letv) q).
Proof.
  intros fexp m e l t X. split.
  - intros H. apply deposit_throw. destruct H as [->|[->| ->]]; reflexivity.
  - intros N1 N2 N3 PM KL. assert (MT : exists mass, masses (er_params m) t = Some mass) by (destruct t; try congruence; eexists; reflexivity). destruct MT as [mass MT].
    destruct (deposit_range fexp X m e l t mass (phys_of m PM) MT) as (q & DQ & OQ & RQ); [destruct KL as [->|KL]; [left; reflexivity|right; apply moderate_bnd; exact KL]|]. exists q. split; [exact DQ|]. split; [exact OQ|exact RQ].
Qed.
Example C387_nonvacuous : physical silicon /\ kelvin (dofZ 40).
Proof. split; [exact silicon_phys|right; apply lit_mod; vm_compute; reflexivity]. Qed.

(** ** C388: corrections touch exactly the types asked for *)
Lemma asked_in d ts t : In t (types_to_process d ts) <-> asked d ts t.
Proof.
  destruct ts as [|a ts]; [|apply types_in; discriminate]. rewrite types_in_nil. unfold asked, entries. destruct (interst d t), (vacs d t), (clus d t); split; intros H; try congruence; try (left; discriminate); try (right; left; discriminate); try (right; right; discriminate). destruct H as [H|[H|H]]; congruence.
Qed.
Lemma asked_dec d ts t : asked d ts t \/ ~ asked d ts t.
Proof. rewrite <- asked_in. destruct (in_dec (fun a b : ptype => ltac:(decide equality) : {a = b} + {a <> b}) t (types_to_process d ts)); [left|right]; assumption. Qed.
Lemma same_types d ts ts' : (forall t, asked d ts t <-> asked d ts' t) -> types_to_process d ts = types_to_process d ts'.
Proof.
  intros H. assert (F : forall r, exists g, types_to_process d r = filter g ptypes) by (intros [|a r]; eexists; reflexivity). destruct (F ts) as [g Eg]. destruct (F ts') as [g' Eg']. rewrite Eg, Eg'. apply filter_ext_in. intros t IT.
  pose proof (asked_in d ts t) as A. pose proof (asked_in d ts' t) as A'. rewrite Eg, filter_In in A. rewrite Eg', filter_In in A'. specialize (H t). destruct (g t), (g' t); try reflexivity; exfalso; assert (false = true) by tauto; discriminate.
Qed.
Theorem C388_corrections : forall fexp c q temp, exists F : sf -> sf * sf * sf, forall d ts,
  ((exists t, asked d ts t /\ masses q t = None) -> applyCorrections fexp d c q temp ts = Throw E_runtime_error) /\
  ((forall t, asked d ts t -> masses q t <> None) ->
     exists d', applyCorrections fexp d c q temp ts = Ret d' /\
       (forall t, ~ asked d ts t -> entries d' t = entries d t) /\
       (forall t mass, asked d ts t -> masses q t = Some mass ->
          entries d' t = (all_times (fst (fst (F mass))) (interst d t), all_times (snd (fst (F mass))) (vacs d t), all_times (snd (F mass)) (clus d t)))) /\
  (forall ts', (forall t, asked d ts t <-> asked d ts' t) -> applyCorrections fexp d c q temp ts = applyCorrections fexp d c q temp ts').
Proof.
  intros fexp c q temp. exists (fun mass => let '(fi, fv, fc, s) := factors fexp c q temp mass in (dmul fi s, dmul fv s, dmul fc s)). intros d ts. split; [|split].
  - intros (t & A & M). unfold applyCorrections. apply corr_throw. exists t. split; [apply asked_in; exact A|exact M].
  - intros M. destruct (corr_list fexp c q temp (types_to_process d ts) (types_nodup d ts)) with (d := d) as (d' & E1 & K1 & K2). { intros t I. apply M, asked_in, I. }
    exists d'. split; [exact E1|]. split.
    + intros t N. destruct (K1 t) as (A & B & C); [intros I; apply N, asked_in, I|]. unfold entries. rewrite A, B, C. reflexivity.
    + intros t mass A MT. specialize (K2 t mass (proj2 (asked_in d ts t) A) MT). destruct (factors fexp c q temp mass) as [[[fi fv] fc] s]. destruct K2 as (A1 & B1 & C1). cbn [fst snd]. unfold entries. rewrite A1, B1, C1. reflexivity.
  - intros ts' H. unfold applyCorrections. rewrite (same_types d ts ts' H). reflexivity.
Qed.
Example C388_nonvacuous : asked default_defects [] Proton /\ ~ asked default_defects [] Electron /\ asked default_defects [Electron; Electron] Electron /\ masses default_qparams Proton <> None /\ masses default_qparams Muon = None /\
  exists d', applyCorrections one_exp default_defects default_crystal default_qparams (dofZ 300) [] = Ret d' /\ interst d' Proton <> interst default_defects Proton.
Proof.
  split; [discriminate|]. split; [intros H; apply H; reflexivity|]. split; [left; reflexivity|]. split; [discriminate|]. split; [reflexivity|].
  assert (Q : match applyCorrections one_exp default_defects default_crystal default_qparams (dofZ 300) [] with Ret d' => match interst d' Proton with Some (x :: _) => flt d1 x | _ => false end | _ => false end = true) by (vm_compute; reflexivity).
  destruct (applyCorrections one_exp default_defects default_crystal default_qparams (dofZ 300) []) as [d'| | |]; try discriminate Q. exists d'. split; [reflexivity|]. intros E1. rewrite E1 in Q. assert (Z : flt d1 d1 = false) by (vm_compute; reflexivity). cbn [interst default_defects only_proton] in Q. congruence.
Qed.

(** ** C389: no correction exceeds 1 + kT/B *)
Theorem C389_cap_refuted : forall fexp, exp_lib fexp -> exists d' x y z, applyCorrections fexp default_defects default_crystal default_qparams d0 [Proton] = Ret d' /\
  vacs default_defects Proton = Some [d1; dofZ 2; dofZ 3] /\ vacs d' Proton = Some [x; y; z] /\ R x = 5 / 2 /\ R y = 5 /\ R z = 15 / 2 /\ (1 + boltzmann * R d0 / R (c_barrier default_crystal) = 1).
Proof.
  intros fexp X. unfold applyCorrections. rewrite types_one. cbn [for_each]. unfold correct_type, getMass. change (masses default_qparams Proton) with (Some (dq 16726219 (10 ^ 34)%positive)). cbn [obind].
  set (mass := dq 16726219 (10 ^ 34)%positive). destruct (factors fexp default_crystal default_qparams d0 mass) as [[[fi fv] fc] s] eqn:F. unfold factors in F.
  assert (S1 : (if flt d0 (temp_threshold default_qparams) then dadd d1 (ddiv (dsub (temp_threshold default_qparams) d0) (temp_factor default_qparams)) else d1) = dq 5 2) by (vm_compute; reflexivity).
  assert (CAP : enh_cap default_crystal d0 = d1) by (vm_compute; reflexivity). cbv zeta in F. rewrite S1, CAP in F.
  assert (PR : inr 0 1 (tunneling fexp (c_barrier default_crystal) mass (hbar default_qparams) d0)). { apply (tunnel_range fexp X); [apply lit_bnd; vm_compute; reflexivity|apply lit_bnd; vm_compute; reflexivity|apply lit_bnd; vm_compute; reflexivity|left; reflexivity]. }
  destruct (five_p 3 _ ltac:(lia) PR) as [O5 L5]. set (p3 := dadd d1 (dmul (dofZ 3) (tunneling fexp (c_barrier default_crystal) mass (hbar default_qparams) d0))) in *. destruct (fmin_d p3 d1 O5 (proj1 o_ok)) as [OM EM]. rewrite (proj2 o_ok), Rmin_right in EM by exact L5.
  assert (FV : fv = fmin p3 d1) by (pose proof (f_equal (fun r : sf * sf * sf * sf => snd (fst (fst r))) F) as Q; symmetry; exact Q). assert (SV : s = dq 5 2) by (pose proof (f_equal (fun r : sf * sf * sf * sf => snd r) F) as Q; symmetry; exact Q).
  assert (H52 : okd (dq 5 2) /\ R (dq 5 2) = 5 / 2). { split; [split; vm_compute; reflexivity|]. assert (V : dq 5 2 = S754_finite false 5629499534213120 (-51)) by (vm_compute; reflexivity). rewrite V, fin_R. cbn [cond_Zopp]. change (b2 (-51)) with (/ IZR 2251799813685248). lra. }
  assert (G : forall z, (1 <= z <= 3)%Z -> R (dmul (dofZ z) (dmul fv s)) = IZR z * (5 / 2)).
  { intros z Hz. rewrite FV, SV. destruct (ofZ_ex z ltac:(lia)) as [Oz Ez]. destruct H52 as [OH EH]. destruct (mul_d _ _ OM OH) as [O1 E1]; [rewrite EM, EH; unfold mid; lra|]. rewrite EM, EH, Rmult_1_l in E1. assert (E1' : rnd64 (5 / 2) = 5 / 2) by (rewrite <- EH; apply (rnd_R 53 1024); apply OH). rewrite E1' in E1.
    assert (BZ : 1 <= IZR z <= 3) by (split; apply IZR_le; lia). destruct (mul_d _ _ Oz O1) as [O2 E2]; [rewrite Ez, E1; unfold mid; lra|]. rewrite E2, Ez, E1.
    assert (CZ : z = 1%Z \/ z = 2%Z \/ z = 3%Z) by lia. destruct (ofZ_ex 5 ltac:(lia)) as [O55 E55]. assert (H152 : okd (dq 15 2) /\ R (dq 15 2) = 15 / 2). { split; [split; vm_compute; reflexivity|]. assert (V : dq 15 2 = S754_finite false 8444249301319680 (-50)) by (vm_compute; reflexivity). rewrite V, fin_R. cbn [cond_Zopp]. change (b2 (-50)) with (/ IZR 1125899906842624). lra. }
    destruct CZ as [-> |[-> | ->]]; [rewrite Rmult_1_l; exact E1'| |].
    - replace (2 * (5 / 2)) with (R (dofZ 5)) by (rewrite E55; lra). apply (rnd_R 53 1024). apply O55.
    - replace (3 * (5 / 2)) with (R (dq 15 2)) by (rewrite (proj2 H152); lra). apply (rnd_R 53 1024). apply H152. }
  eexists. exists (dmul d1 (dmul fv s)), (dmul (dofZ 2) (dmul fv s)), (dmul (dofZ 3) (dmul fv s)). split; [reflexivity|]. split; [reflexivity|]. split; [reflexivity|].
  split; [change d1 with (dofZ 1); rewrite (G 1%Z) by lia; lra|]. split; [rewrite (G 2%Z) by lia; lra|]. split; [rewrite (G 3%Z) by lia; lra|]. rewrite (proj2 z_ok). unfold Rdiv. rewrite Rmult_0_r, Rmult_0_l. lra.
Qed.
Theorem C389_cap_partial : forall fexp c q temp d ts d' t mass, exp_lib fexp -> moderate (c_barrier c) -> between (bpow radix2 (-100)) (bpow radix2 100) (c_const c) ->
  between (bpow radix2 (-100)) (bpow radix2 100) (hbar q) -> masses q t = Some mass -> between (bpow radix2 (-200)) (bpow radix2 100) mass -> kelvin temp -> flt temp (temp_threshold q) = false ->
  asked d ts t -> applyCorrections fexp d c q temp ts = Ret d' ->
  exists xi xv xc, capped (c_barrier c) temp xi /\ capped (c_barrier c) temp xv /\ capped (c_barrier c) temp xc /\ entries d' t = (all_times xi (interst d t), all_times xv (vacs d t), all_times xc (clus d t)).
Proof.
  intros fexp c q temp d ts d' t mass X BC BL BH MT BM KT TH A AC.
  destruct (factors_ok fexp X c q temp mass (moderate_bnd _ BC) BL BH BM (kelvin_warm _ KT) TH) as (fi & fv & fc & F & G1 & G2 & G3).
  assert (ALL : forall k, In k (types_to_process d ts) -> masses q k <> None). { intros k IK MK. unfold applyCorrections in AC. rewrite (corr_throw fexp c q temp _ (ex_intro _ k (conj IK MK))) in AC. discriminate AC. }
  destruct (corr_list fexp c q temp (types_to_process d ts) (types_nodup d ts) ALL d) as (d2 & E1 & _ & K2). unfold applyCorrections in AC. rewrite E1 in AC. injection AC as <-.
  specialize (K2 t mass (proj2 (asked_in d ts t) A) MT). rewrite F in K2. destruct K2 as (A1 & B1 & C1). exists (dmul fi d1), (dmul fv d1), (dmul fc d1). split; [exact G1|]. split; [exact G2|]. split; [exact G3|]. unfold entries. rewrite A1, B1, C1. reflexivity.
Qed.
Example C389_nonvacuous : moderate (c_barrier default_crystal) /\ between (bpow radix2 (-100)) (bpow radix2 100) (c_const default_crystal) /\ between (bpow radix2 (-100)) (bpow radix2 100) (hbar default_qparams) /\
  between (bpow radix2 (-200)) (bpow radix2 100) proton_mass /\ masses default_qparams Proton = Some proton_mass /\ kelvin (dofZ 300) /\ flt (dofZ 300) (temp_threshold default_qparams) = false /\ asked default_defects [Proton] Proton.
Proof.
  split; [apply lit_mod; vm_compute; reflexivity|]. split; [apply (lit_bnd (-100) 100); vm_compute; reflexivity|]. split; [apply (lit_bnd (-100) 100); vm_compute; reflexivity|]. split; [apply (lit_bnd (-200) 100); vm_compute; reflexivity|]. split; [reflexivity|].
  split; [right; apply lit_mod; vm_compute; reflexivity|]. split; [vm_compute; reflexivity|left; reflexivity].
Qed.

(** ** C390: transition probabilities *)
Definition no_hbar : qparams := mkQ d0 default_masses default_couplings d1 (dq 1 (10 ^ 18)%positive) (dofZ (10 ^ 15)) (dofZ (10 ^ 15)) (dq 1 1000) (dofZ 150) (dofZ 100) (dq 1 100).
Theorem C390_transition_refuted : forall fexp, exp_lib fexp ->
  transition_prob fexp d0 d0 no_hbar Proton = Ret S754_nan /\ transition_prob fexp d0 d0 no_hbar Electron = Ret d1 /\ transition_prob fexp d0 d0 no_hbar Photon = Ret d0.
Proof.
  intros fexp X. assert (N : transition_raw fexp d0 d0 (hbar no_hbar) = S754_nan). { unfold transition_raw. assert (A : ddiv (SFopp d0) (dadd (dmul kB d0) (dmul (hbar no_hbar) (dofZ (10 ^ 15)))) = S754_nan) by (vm_compute; reflexivity). rewrite A, (exp_nan fexp X). vm_compute. reflexivity. }
  split; [|split]; (erewrite transition_adjust by reflexivity); rewrite N, (transition_nan); reflexivity.
Qed.
Theorem C390_transition_partial : forall fexp q, exp_lib fexp -> between (bpow radix2 (-100)) (bpow radix2 100) (hbar q) ->
  (forall energy temp t, masses q t = None -> transition_prob fexp energy temp q t = Throw E_runtime_error) /\
  (forall energy temp t, masses q t <> None -> nonneg_double energy -> kelvin temp -> exists p, transition_prob fexp energy temp q t = Ret p /\ between 0 1 p) /\
  (forall energy temp t t' p p', (transition_rank t <= transition_rank t')%nat -> nonneg_double energy -> kelvin temp -> transition_prob fexp energy temp q t = Ret p -> transition_prob fexp energy temp q t' = Ret p' -> fle p p' = true) /\
  (forall energy energy' temp temp' t p p', lib_mono fexp -> nonneg_double energy -> nonneg_double energy' -> fle energy energy' = true -> kelvin temp -> kelvin temp' -> R temp' <= R temp ->
     transition_prob fexp energy temp q t = Ret p -> transition_prob fexp energy' temp' q t = Ret p' -> fle p p' = true).
Proof.
  intros fexp q X H. assert (RI : forall a b : sf, Ret a = Ret b -> a = b) by (intros a b Q; exact (f_equal (fun o => match o with Ret x => x | _ => a end) Q)).
  assert (FORM : forall e temp t p, transition_prob fexp e temp q t = Ret p -> p = adjust t (transition_raw fexp e temp (hbar q))).
  { intros e temp t p Q. destruct (masses q t) as [mass|] eqn:M; [rewrite (transition_adjust fexp e temp q t mass M) in Q; symmetry; apply RI; exact Q|]. unfold transition_prob, getMass in Q. rewrite M in Q. discriminate Q. }
  assert (IN : forall e temp, nonneg_double e -> kelvin temp -> inr 0 1 (transition_raw fexp e temp (hbar q))) by (intros e temp N K; apply nonneg_nneg in N; apply (raw_ok fexp X e temp (hbar q) N (kelvin_warm _ K) H)).
  split; [|split; [|split]].
  - intros e temp t M. unfold transition_prob, getMass. rewrite M. reflexivity.
  - intros e temp t M N K. destruct (masses q t) as [mass|] eqn:MT; [|congruence]. eexists. split; [exact (transition_adjust fexp e temp q t mass MT)|]. apply (adjust_rank _ t t (IN e temp N K)). lia.
  - intros e temp t t' p p' L N K Q Q'. rewrite (FORM _ _ _ _ Q), (FORM _ _ _ _ Q'). pose proof (IN e temp N K) as I. destruct (adjust_rank _ t t' I) as [LE [O1 _]]; [destruct t, t'; cbn in L |- *; lia|]. destruct (adjust_rank _ t' t' I) as [_ [O2 _]]; [lia|]. apply (fle_d _ _ O1 O2). exact LE.
  - intros e e' temp temp' t p p' XM N N' L K K' LT Q Q'. rewrite (FORM _ _ _ _ Q), (FORM _ _ _ _ Q'). pose proof (IN e temp N K) as I. pose proof (IN e' temp' N' K') as I'. destruct (adjust_rank _ t t I) as [_ [O1 _]]; [lia|]. destruct (adjust_rank _ t t I') as [_ [O2 _]]; [lia|]. apply (fle_d _ _ O1 O2).
    apply adjust_mono; [exact I|exact I'|]. apply nonneg_nneg in N, N'. apply (leE _ _ (proj1 N) (proj1 N')) in L. apply (raw_mono fexp X); try assumption; apply kelvin_warm; assumption.
Qed.
Example C390_nonvacuous : between (bpow radix2 (-100)) (bpow radix2 100) (hbar default_qparams) /\ nonneg_double (dofZ 2) /\ nonneg_double (S754_infinity false) /\ lib_mono one_exp /\ masses default_qparams Photon <> None /\
  transition_prob step_exp (dofZ 2) (dofZ 300) default_qparams Proton = Ret (dq 3 8) /\ transition_prob step_exp (dofZ 2) (dofZ 300) default_qparams Photon = Ret (dq 9 16).
Proof. split; [apply (lit_bnd (-100) 100); vm_compute; reflexivity|]. split; [split; vm_compute; reflexivity|]. split; [split; vm_compute; reflexivity|]. split; [exact one_exp_mono|]. split; [discriminate|]. split; vm_compute; reflexivity. Qed.

(** ** C391: displacement energies *)
Theorem C391_displacement_refuted : exists p e, displacementEnergy default_crystal default_qparams Proton = Ret p /\ displacementEnergy default_crystal default_qparams Electron = Ret e /\ 10000000 <= R p /\ 100000000 <= R e.
Proof.
  assert (A : displacementEnergy default_crystal default_qparams Proton = Ret (S754_finite false 6289979866692644 (-29))) by (vm_compute; reflexivity). assert (B : displacementEnergy default_crystal default_qparams Electron = Ret (S754_finite false 8422700672539943 (-24))) by (vm_compute; reflexivity).
  do 2 eexists. split; [exact A|]. split; [exact B|]. rewrite !fin_R. cbn [cond_Zopp]. change (b2 (-29)) with (/ IZR 536870912). change (b2 (-24)) with (/ IZR 16777216). lra.
Qed.
Theorem C391_displacement_partial : forall c q t,
  (masses q t = None -> displacementEnergy c q t = Throw E_runtime_error) /\
  (forall mass, masses q t = Some mass -> moderate (c_const c) -> between (bpow radix2 (-200)) (bpow radix2 100) mass -> between (bpow radix2 (-100)) (bpow radix2 100) (hbar q) ->
     exists e, displacementEnergy c q t = Ret e /\ finite_double e /\ particle_share t * lattice_ev c * (1 - / 1000000000) <= R e).
Proof. intros c q t. split; [apply displacement_throw|]. intros mass M C BM H. exact (displacement_ok c q t mass (moderate_bnd _ C) M BM H). Qed.
Example C391_nonvacuous : masses default_qparams HeavyIon = None /\ masses default_qparams Proton = Some proton_mass /\ moderate (c_const default_crystal) /\ between (bpow radix2 (-200)) (bpow radix2 100) proton_mass /\ between (bpow radix2 (-100)) (bpow radix2 100) (hbar default_qparams).
Proof. split; [reflexivity|]. split; [reflexivity|]. split; [apply lit_mod; vm_compute; reflexivity|]. split; [apply (lit_bnd (-200) 100); vm_compute; reflexivity|apply (lit_bnd (-100) 100); vm_compute; reflexivity]. Qed.

(** ** C392: displacement cascades *)
Theorem C392_cascade_refuted : forall pka displacement t, flt displacement pka = false ->
  interst (simulateCascade pka displacement t) Proton = Some [d1; dofZ 2; dofZ 3] /\ vacs (simulateCascade pka displacement t) Proton = Some [d1; dofZ 2; dofZ 3] /\ clus (simulateCascade pka displacement t) Proton = Some [dq 1 2; d1; dq 3 2].
Proof. intros p dsp t H. unfold simulateCascade. rewrite H. repeat split. Qed.
Theorem C392_cascade_partial : forall pka displacement t, moderate pka -> moderate displacement -> R displacement < R pka ->
  exists (n : Z) i v c, entries (simulateCascade pka displacement t) t = (Some i, Some v, Some c) /\ (0 <= n)%Z /\
    8 / 10 * (R pka / R displacement) * (1 - / 100000000000) - 1 < IZR n <= 8 / 10 * (R pka / R displacement) * (1 + / 100000000000) /\
    length i = 3%nat /\ length v = 3%nat /\ length c = 3%nat /\ Forall (fun x => finite_double x /\ 0 <= R x) (i ++ v ++ c) /\
    Rabs (real_sum v - IZR n * fst (fst (cascade_share t))) <= IZR n * / 100000000000 /\ Rabs (real_sum i - IZR n * snd (fst (cascade_share t))) <= IZR n * / 100000000000 /\ Rabs (real_sum c - IZR n * snd (cascade_share t)) <= IZR n * / 100000000000.
Proof.
  intros pka disp t BP BD L. pose proof (bnd_pos _ _ _ (moderate_bnd _ BP)) as PP. pose proof (bnd_pos _ _ _ (moderate_bnd _ BD)) as PD. destruct (cascade_ok pka disp t (moderate_bnd _ BP) (moderate_bnd _ BD) L) as (n & i & v & c & N0' & NB & I & V & C & L1 & L2 & L3 & F & SH).
  exists n, i, v, c. split; [unfold entries; rewrite I, V, C; reflexivity|]. split; [exact N0'|]. assert (Q : 0 < R pka / R disp) by (apply Rdiv_lt_0_compat; lra). split; [unfold u12 in NB; split; lra|]. split; [exact L1|]. split; [exact L2|]. split; [exact L3|]. split; [exact F|].
  change cascade_share with share. change real_sum with rsum. apply IZR_le in N0'. assert (B : forall x, x <= 1 -> IZR n * x * / 100000000000 <= IZR n * / 100000000000) by (intros x Hx; assert (IZR n * x <= IZR n * 1) by (apply Rmult_le_compat_l; lra); lra).
  assert (S1 : fst (fst (share t)) <= 1 /\ snd (fst (share t)) <= 1 /\ snd (share t) <= 1) by (destruct t; cbn [share fst snd]; lra). destruct (share t) as [[rv ri] rc]. cbn [fst snd] in *. destruct SH as (A1 & A2 & A3). destruct S1 as (B1 & B2 & B3).
  split; [apply Rle_trans with (1 := A1); auto|]. split; [apply Rle_trans with (1 := A2); auto|apply Rle_trans with (1 := A3); auto].
Qed.
Example C392_nonvacuous : moderate (dofZ 1000) /\ moderate (dofZ 25) /\ R (dofZ 25) < R (dofZ 1000) /\ flt (dofZ 25) (dofZ 10) = false.
Proof. split; [apply lit_mod; vm_compute; reflexivity|]. split; [apply lit_mod; vm_compute; reflexivity|]. split; [rewrite (proj2 (ofZ_ex 25 ltac:(lia))), (proj2 (ofZ_ex 1000 ltac:(lia))); lra|vm_compute; reflexivity]. Qed.

(** ** C393: decoherence *)
Lemma counted_of d : counts_ok d -> counted d.
Proof.
  intros H. split; intros t l Q; (eapply Forall_impl; [intros x Hx; apply nonneg_nneg; exact Hx|]); apply (H t l); tauto.
Qed.
Lemma grows_le o o' : (forall l, o = Some l -> Forall nonneg_double l) -> (forall l, o' = Some l -> Forall nonneg_double l) -> list_grows o o' -> entry_le o o'.
Proof.
  intros A B. unfold list_grows, entry_le. destruct o as [l|], o' as [l'|]; auto. specialize (A l eq_refl). specialize (B l' eq_refl). intros F. induction F as [|x y l l' L F IH]; constructor.
  - inversion A; inversion B; subst. pose proof (proj1 (nonneg_nneg x) H1) as [Dx _]. pose proof (proj1 (nonneg_nneg y) H5) as [Dy _]. apply (leE _ _ Dx Dy). exact L.
  - inversion A; inversion B; subst. apply IH; assumption.
Qed.
Theorem C393_decoherence : forall x t d d' temp temp', between (bpow radix2 (-100)) (bpow radix2 100) (getDeco x t) -> between (bpow radix2 (-100)) (bpow radix2 100) (getDiss x t) -> counts_ok d -> counts_ok d' -> kelvin temp -> kelvin temp' ->
  nonneg_double (decoherence d temp x t) /\ fle (getDeco x t) (decoherence d temp x t) = true /\
  (defects_grow d d' t -> R temp <= R temp' -> fle (decoherence d temp x t) (decoherence d' temp' x t) = true).
Proof.
  intros x t d d' temp temp' B1 B2 C C' K K'. pose proof (counted_of d C) as CT. pose proof (counted_of d' C') as CT'. destruct (deco_ok d temp x t (kelvin_warm _ K) CT B1 B2) as [N1 G1]. destruct (deco_ok d' temp' x t (kelvin_warm _ K') CT' B1 B2) as [N2 _].
  split; [apply nonneg_nneg; exact N1|]. split; [apply (leE _ _ (okd_dbl _ (proj1 B1)) (proj1 N1)); exact G1|]. intros (G2 & G3 & G4) L. apply (leE _ _ (proj1 N1) (proj1 N2)).
  apply deco_mono; try assumption; try (apply kelvin_warm; assumption); (apply grows_le; [| |assumption]); intros l Q; first [apply (C t l); tauto|apply (C' t l); tauto].
Qed.
Definition plain_x : xparams := mkX default_qparams (fun _ => Some (dq 1 (10 ^ 12)%positive)) (fun _ => Some (dq 1 100)).
Definition more_defects : defects := mkD (fun _ => Some [dofZ 2; dofZ 2; dofZ 3]) (vacs default_defects) (clus default_defects).
Example C393_nonvacuous : between (bpow radix2 (-100)) (bpow radix2 100) (getDeco plain_x Proton) /\ between (bpow radix2 (-100)) (bpow radix2 100) (getDiss plain_x Proton) /\ counts_ok default_defects /\ counts_ok more_defects /\ defects_grow default_defects more_defects Proton /\
  flt (decoherence default_defects (dofZ 300) plain_x Proton) (decoherence more_defects (dofZ 300) plain_x Proton) = true.
Proof.
  assert (NN : forall p, fle d0 p = true -> is_double p -> nonneg_double p) by (intros p A B; split; assumption). assert (NL : Forall nonneg_double [d1; dofZ 2; dofZ 3] /\ Forall nonneg_double [dq 1 2; d1; dq 3 2] /\ Forall nonneg_double [dofZ 2; dofZ 2; dofZ 3]).
  { split; [|split]; (apply Forall_cons; [apply NN; vm_compute; reflexivity|apply Forall_cons; [apply NN; vm_compute; reflexivity|apply Forall_cons; [apply NN; vm_compute; reflexivity|apply Forall_nil]]]). } destruct NL as (F1 & F2 & F3).
  split; [apply (lit_bnd (-100) 100); vm_compute; reflexivity|]. split; [apply (lit_bnd (-100) 100); vm_compute; reflexivity|].
  assert (RS : forall a b : list sf, Some a = Some b -> b = a) by (intros a b Q; exact (f_equal (fun o => match o with Some y => y | None => a end) (eq_sym Q))).
  split; [|split; [|split]].
  - intros t l [H|[H|H]]; destruct t; try discriminate H; rewrite (RS _ _ H); assumption.
  - intros t l [H|[H|H]]; [rewrite (RS _ _ H); exact F3| |]; destruct t; try discriminate H; rewrite (RS _ _ H); assumption.
  - assert (LL : forall a b, fle a b = true -> fle a b = true) by auto. split; [|split]; unfold list_grows, more_defects, default_defects, only_proton, interst, vacs, clus; (apply Forall2_cons; [vm_compute; reflexivity|apply Forall2_cons; [vm_compute; reflexivity|apply Forall2_cons; [vm_compute; reflexivity|apply Forall2_nil]]]).
  - vm_compute. reflexivity.
Qed.

(** ** C394: device sensitivity *)
Theorem C394_sensitivity_refuted : forall m t feature, physical m -> moderate feature -> flt feature (dofZ 100) = true -> 65536 <= R (deviceSensitivity m t feature).
Proof. intros m t f PM BF H. apply sens_small; [apply moderate_bnd, (phys_mass m PM)|apply moderate_bnd, (phys_gap m PM)|apply moderate_bnd, BF|exact H]. Qed.
Lemma base_doc t : Rabs (R (base_sensitivity t) - documented_sensitivity t) <= / 100000000000.
Proof.
  assert (G : forall x v, near 1 x v -> v <= 3 / 2 -> Rabs (R x - v) <= / 100000000000) by (intros x v [P N] L; unfold u12 in N; apply Rabs_le; lra).
  destruct t; cbn [base_sensitivity documented_sensitivity]; [rewrite (proj2 o_ok); apply Rabs_le; lra| | | | | |]; (apply G; [litnear|lra]).
Qed.
Theorem C394_sensitivity_partial : forall m t t' feature feature', physical m -> moderate feature -> moderate feature' ->
  finite_double (deviceSensitivity m t feature) /\
  (R feature <= R feature' -> (device_rank t <= device_rank t')%nat -> R (deviceSensitivity m t feature') <= R (deviceSensitivity m t' feature)) /\
  (100 <= R feature -> Rabs (R (deviceSensitivity m t feature) - documented_sensitivity t) <= / 100000000000).
Proof.
  intros m t t' f f' PM BF BF'. pose proof (moderate_bnd _ (phys_mass m PM)) as M1. pose proof (moderate_bnd _ (phys_gap m PM)) as G1. pose proof (moderate_bnd _ BF) as F1. pose proof (moderate_bnd _ BF') as F2.
  split; [apply (sens_mono m t t f f M1 G1 F1 F1); [lra|lia]|]. split; [intros L O; apply (sens_mono m t t' f f' M1 G1 F1 F2 L O)|].
  intros H. rewrite sens_large; [apply base_doc|]. apply (flt_dF _ _ (proj1 F1) (proj1 hundred)). rewrite (proj2 hundred). exact H.
Qed.
Example C394_nonvacuous : physical silicon /\ moderate (dofZ 65) /\ flt (dofZ 65) (dofZ 100) = true /\ moderate (dofZ 130) /\ 100 <= R (dofZ 130).
Proof. split; [exact silicon_phys|]. split; [apply lit_mod; vm_compute; reflexivity|]. split; [vm_compute; reflexivity|]. split; [apply lit_mod; vm_compute; reflexivity|rewrite (proj2 (ofZ_ex 130 ltac:(lia))); lra]. Qed.

(** ** C395: radiation applied to memory stays inside it and reports what it did *)
Theorem C395_apply : forall fexp fpow2 m rng energy letv t dev duration, exp_lib fexp -> pow2_lib fpow2 ->
  applyRadiation fexp fpow2 m rng None energy letv t dev duration = Ret (None, 0%N) /\
  applyRadiation fexp fpow2 m rng (Some []) energy letv t dev duration = Ret (Some [], 0%N) /\
  (forall bytes, physical m -> t <> Positron -> t <> Muon -> t <> Neutrino -> kelvin letv -> most_charge m letv <= 1073741824 * R (crit_fc m) ->
     bytes <> [] -> Forall is_byte bytes -> (forall i, draw_ok (length bytes) (rng i)) -> (duration < 2 ^ 32)%N -> (N.of_nat (length bytes) <= 2 ^ 40)%N -> (N.of_nat (length bytes) * duration <= 2 ^ 40)%N ->
     exists bytes' flips, applyRadiation fexp fpow2 m rng (Some bytes) energy letv t dev duration = Ret (Some bytes', flips) /\
       length bytes' = length bytes /\ Forall is_byte bytes' /\
       (forall j, (forall i, j <> N.to_nat (d_byte (rng i))) -> nth_error bytes' j = nth_error bytes j) /\
       (diff_bits bytes bytes' <= N.to_nat flips)%nat /\ Nat.even (diff_bits bytes bytes') = Nat.even (N.to_nat flips) /\
       (flips <= 8 * (1 + N.of_nat (length bytes) * duration / 100000))%N /\
       (most_charge m letv < 2 * R (crit_fc m) -> (flips <= 1 + N.of_nat (length bytes) * duration / 100000)%N)).
Proof.
  intros fexp fpow2 m rng e l t dev dur X P. split; [reflexivity|]. split; [reflexivity|]. intros bytes PM T1 T2 T3 KL CL NE FB DR HD HS HP.
  assert (MT : masses (er_params m) t <> None) by (destruct t; congruence || discriminate).
  destruct (apply_ok fexp fpow2 X P m rng bytes e l t dev dur PM MT KL CL NE FB DR HS HD HP) as (b' & k & A1 & A2 & A3 & A4 & A5 & A6 & A7 & A8 & A9). exists b', k. auto 12.
Qed.
Definition four_bytes : list N := [0; 255; 128; 7]%N.
Definition some_draws (i : nat) : draw := mkDraw (dq 1 8) 2 5.
Example C395_nonvacuous : exp_lib step_exp /\ pow2_lib square /\ physical silicon /\ kelvin (dofZ 200) /\ most_charge silicon (dofZ 200) <= 1073741824 * R (crit_fc silicon) /\ Forall is_byte four_bytes /\ (forall i, draw_ok (length four_bytes) (some_draws i)) /\
  applyRadiation step_exp square silicon some_draws (Some four_bytes) d1 (dofZ 200) Proton SRAM_6T 1000 = Ret (Some [0; 255; 224; 7]%N, 2%N).
Proof.
  split; [apply step_exp_ok|]. split; [apply square_ok|]. split; [exact silicon_phys|]. split; [right; apply lit_mod; vm_compute; reflexivity|]. split.
  { unfold most_charge, boltzmann. change (crit_fc silicon) with (dofZ 15). change (temp_k silicon) with (dofZ 300). rewrite (proj2 (ofZ_ex 200 ltac:(lia))), (proj2 (ofZ_ex 15 ltac:(lia))), (proj2 (ofZ_ex 300 ltac:(lia))).
    assert (RG : 1 <= R (bandgap silicon)). { change (bandgap silicon) with (dq 112 100). assert (Q : fle d1 (dq 112 100) = true) by (vm_compute; reflexivity). apply (fle_d _ _ (proj1 o_ok)) in Q; [rewrite (proj2 o_ok) in Q; exact Q|split; vm_compute; reflexivity]. }
    assert (I : / R (bandgap silicon) <= 1) by (rewrite <- Rinv_1; apply Rinv_le; lra). unfold Rdiv in *. lra. }
  split; [repeat constructor; unfold is_byte; lia|]. split; [|vm_compute; reflexivity].
  intros i. unfold draw_ok, some_draws. cbn [d_prob d_byte d_bit]. assert (V : dq 1 8 = S754_finite false 4503599627370496 (-55)) by (vm_compute; reflexivity). split; [split; vm_compute; reflexivity|]. split; [rewrite V, fin_R; cbn [cond_Zopp]; change (b2 (-55)) with (/ IZR 36028797018963968); lra|]. split; [cbn; lia|lia].
Qed.

(** ** C396: radiation can be applied for any duration *)
Theorem C396_duration_refuted : forall fexp fpow2 rng bytes energy, exp_lib fexp -> exp_decay fexp -> pow2_lib fpow2 -> pow2_grows fpow2 -> N.of_nat (length bytes) = (2 ^ 20)%N ->
  applyRadiation fexp fpow2 silicon rng (Some bytes) energy (dofZ 100) Proton SRAM_6T (2 ^ 32 - 1) = UB UB_float_to_int.
Proof. intros fexp fpow2 rng bytes e X XD P PG L. exact (apply_ub fexp fpow2 X P rng bytes e XD PG L). Qed.
Example C396_nonvacuous : exp_lib step_exp /\ exp_decay step_exp /\ pow2_lib square /\ pow2_grows square /\ exists bytes : list N, N.of_nat (length bytes) = (2 ^ 20)%N.
Proof. split; [apply step_exp_ok|]. split; [apply step_exp_ok|]. split; [apply square_ok|]. split; [apply square_ok|]. exists (repeat 0%N (N.to_nat (2 ^ 20))). rewrite repeat_length. apply N2Nat.id. Qed.

(** ** C397: no energy transfer, no flips; unknown particles are rejected *)
Theorem C397_nothing : forall fexp fpow2 m rng energy t dev duration bytes, exp_lib fexp -> pow2_lib fpow2 -> bytes <> [] ->
  (t = Positron \/ t = Muon \/ t = Neutrino -> forall letv, applyRadiation fexp fpow2 m rng (Some bytes) energy letv t dev duration = Throw E_runtime_error) /\
  (physical m -> t <> Positron -> t <> Muon -> t <> Neutrino -> Forall is_byte bytes -> (forall i, draw_ok (length bytes) (rng i)) ->
     (duration < 2 ^ 32)%N -> (N.of_nat (length bytes) <= 2 ^ 40)%N -> (N.of_nat (length bytes) * duration <= 2 ^ 40)%N ->
     applyRadiation fexp fpow2 m rng (Some bytes) energy d0 t dev duration = Ret (Some bytes, 0%N)).
Proof.
  intros fexp fpow2 m rng e t dev dur bytes X P NE. split.
  - intros H l. apply apply_throw; [|exact NE]. destruct H as [->|[->| ->]]; reflexivity.
  - intros PM T1 T2 T3 FB DR HD HS HP. assert (MT : masses (er_params m) t <> None) by (destruct t; congruence || discriminate).
    assert (CL : charge_limit m d0 <= 1073741824 * R (crit_fc m)). { unfold charge_limit. rewrite (proj2 z_ok). pose proof (bnd_pos _ _ _ (moderate_bnd _ (phys_crit m PM))). lra. }
    destruct (apply_ok fexp fpow2 X P m rng bytes e d0 t dev dur PM MT (or_introl eq_refl) CL NE FB DR HS HD HP) as (b' & k & A1 & _ & _ & _ & _ & _ & _ & _ & A9). destruct (A9 eq_refl) as [-> ->]. exact A1.
Qed.
Example C397_nonvacuous : physical silicon /\ Forall is_byte four_bytes /\ (forall i, draw_ok (length four_bytes) (some_draws i)).
Proof. destruct C395_nonvacuous as (_ & _ & A & _ & _ & B & C & _). auto. Qed.

Print Assumptions C380_tunneling_refuted.
Print Assumptions C380_tunneling_partial.
Print Assumptions C381_guards.
Print Assumptions C382_critical.
Print Assumptions C383_flip.
Print Assumptions C384_monotone_refuted.
Print Assumptions C384_monotone_partial.
Print Assumptions C385_upset_refuted.
Print Assumptions C385_upset_partial.
Print Assumptions C386_upset_order.
Print Assumptions C387_charge_refuted.
Print Assumptions C387_charge_partial.
Print Assumptions C388_corrections.
Print Assumptions C389_cap_refuted.
Print Assumptions C389_cap_partial.
Print Assumptions C390_transition_refuted.
Print Assumptions C390_transition_partial.
Print Assumptions C391_displacement_refuted.
Print Assumptions C391_displacement_partial.
Print Assumptions C392_cascade_refuted.
Print Assumptions C392_cascade_partial.
Print Assumptions C393_decoherence.
Print Assumptions C394_sensitivity_refuted.
Print Assumptions C394_sensitivity_partial.
Print Assumptions C395_apply.
Print Assumptions C396_duration_refuted.
Print Assumptions C397_nothing.
