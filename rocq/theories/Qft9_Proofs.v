(** Charge deposition. *)
From Coq Require Import List NArith ZArith Bool Arith Lia Reals Lra SpecFloat.
Import ListNotations.
From Flocq Require Import Core BinarySingleNaN.
From Verif Require Import Outcome Words Floats FloatsR HealthFloat Bits_Model RMA3_Proofs Hw_Proofs Hw2_Proofs Qft_Model Qft_Spec Qft2_Proofs Qft4_Proofs Qft5_Proofs Qft6_Proofs Qft7_Proofs Qft8_Proofs.
Local Open Scope R_scope.

Lemma peq_refl t : ptype_eqb t t = true. Proof. destruct t; reflexivity. Qed.
Lemma peq_eq a b : ptype_eqb a b = true <-> a = b.
Proof. split; [|intros ->; apply peq_refl]. destruct a, b; cbn; congruence. Qed.
Lemma pset_same {A} (m : pmap A) t v : pset m t v t = Some v. Proof. unfold pset. rewrite peq_refl. reflexivity. Qed.
Lemma pset_other {A} (m : pmap A) t v j : j <> t -> pset m t v j = m j.
Proof. intros N. unfold pset. destruct (ptype_eqb j t) eqn:E; [apply peq_eq in E; congruence|reflexivity]. Qed.
Lemma types_one d t : types_to_process d [t] = [t]. Proof. destruct t; reflexivity. Qed.
Lemma er_mass m t mass : masses (er_params m) t = Some mass -> bnd (-110) (-80) mass.
Proof.
  intros H. assert (G : match masses (er_params m) t with Some x => litb (-110) (-80) x = true | None => True end) by (destruct t; vm_compute; exact I || reflexivity).
  rewrite H in G. apply lit_bnd. exact G.
Qed.
Lemma scale_self m t l x : m t = Some l -> scale_entry m t x t = Some (map (fun v => dmul v x) l).
Proof. intros H. unfold scale_entry. rewrite H. apply pset_same. Qed.
Lemma hbar_bnd : bnd (-100) 100 hbar_ev. Proof. eapply bnd_weak; [apply (lit_bnd (-51) (-50)); vm_compute; reflexivity|lia|lia]. Qed.

Section X.
Variable fexp : sf -> sf.
Hypothesis X : exp_lib fexp.
Record phys (m : material) : Prop := { ph_gap : bnd (-20) 20 (bandgap m); ph_lat : bnd (-20) 20 (lattice_nm m); ph_crit : bnd (-20) 20 (crit_fc m); ph_temp : warm (temp_k m) }.
Lemma lt_irr x : okd x -> flt x x = false. Proof. intros O. apply flt_dF; auto. lra. Qed.
Definition lat_crystal (m : material) : crystal := mkC DIAMOND (dmul (lattice_nm m) (dq 1 (10 ^ 10)%positive)) (bandgap m).
Lemma deposit_form m e l t mass : phys m -> masses (er_params m) t = Some mass -> exists fi fv fc, good_factor (lat_crystal m) (temp_k m) fi /\ good_factor (lat_crystal m) (temp_k m) fv /\ good_factor (lat_crystal m) (temp_k m) fc /\
  let cl := dmul l (dq 278 1000) in
  let charge := dadd (dadd (dadd d0 (dmul (dmul cl (dq 3 10)) fi)) (dmul (dmul cl (dq 5 10)) fv)) (dmul (dmul cl (dq 2 10)) fc) in
  chargeDeposition fexp m e l t = Ret (dmul charge (collectionEfficiency fexp m charge SRAM_6T)).
Proof.
  intros [G L C W] M. destruct (warm_R _ W) as [OT _]. assert (T10 : bnd (-34) (-33) (dq 1 (10 ^ 10)%positive)) by (apply lit_bnd; vm_compute; reflexivity). destruct (bnd_mul _ _ _ _ _ _ L T10) as [BL _]; try lia.
  destruct (factors_ok fexp X (lat_crystal m) (er_params m) (temp_k m) mass) as (fi & fv & fc & E & A1 & A2 & A3).
  - exact G. - cbn [lat_crystal c_const]. eapply bnd_weak; [exact BL|lia|lia]. - exact hbar_bnd. - eapply bnd_weak; [exact (er_mass m t mass M)|lia|lia]. - exact W. - cbn [er_params temp_threshold]. apply lt_irr. exact OT.
  - exists (dmul fi d1), (dmul fv d1), (dmul fc d1). split; [exact A1|]. split; [exact A2|]. split; [exact A3|]. cbv zeta. unfold chargeDeposition. cbv zeta. unfold applyCorrections. rewrite types_one. cbn [for_each]. unfold correct_type, getMass. rewrite M. cbn [obind].
    fold (lat_crystal m). rewrite E. cbn [obind]. cbn [interst vacs clus]. unfold add_all. rewrite !(scale_self _ _ _ _ (pset_same _ _ _)). cbn [map fold_left]. reflexivity.
Qed.
Lemma deposit_throw m e l t : masses (er_params m) t = None -> chargeDeposition fexp m e l t = Throw E_runtime_error.
Proof. intros M. unfold chargeDeposition. cbv zeta. unfold applyCorrections. rewrite types_one. cbn [for_each]. unfold correct_type, getMass. rewrite M. reflexivity. Qed.
Lemma eff_range m c : phys m -> okd (collectionEfficiency fexp m c SRAM_6T) /\ 899 / 1000 <= R (collectionEfficiency fexp m c SRAM_6T) <= 1.
Proof.
  intros [G L C W]. unfold collectionEfficiency. cbv zeta. cbn [base_efficiency].
  assert (N9 : okd (dq 9 10) /\ 8999 / 10000 <= R (dq 9 10) <= 901 / 1000).
  { assert (H : dq 9 10 = S754_finite false 8106479329266893 (-53)) by (vm_compute; reflexivity). rewrite H. split; [split; reflexivity|]. rewrite fin_R. cbn [cond_Zopp]. change (b2 (-53)) with (/ 9007199254740992). lra. }
  destruct N9 as [O9 B9]. destruct tenth_dec as [OT BT]. apply Rabs_le_inv in BT.
  assert (HG : bnd (-21) 19 (dmul (bandgap m) (dq 1 2))) by (apply (half_exact (-20) 20); [exact G|lia|lia]).
  assert (Q : forall b, okd b -> 899 / 1000 <= R b <= 2 -> okd (dclamp b (dq 1 10) d1) /\ 899 / 1000 <= R (dclamp b (dq 1 10) d1) <= 1).
  { intros b O B. destruct (clamp_gen b (dq 1 10) d1 (okd_dbl _ O) OT (proj1 o_ok)) as (OC & BC & ID); [rewrite (proj2 o_ok); lra|]. rewrite (proj2 o_ok) in BC, ID. split; [exact OC|]. split; [|lra].
    destruct (Rle_or_lt (R b) 1) as [L1|L1]; [rewrite (ID O) by lra; lra|]. unfold dclamp in *. assert (F1 : flt b (dq 1 10) = false) by (apply flt_dF; auto; lra). assert (F2 : flt d1 b = true) by (apply flt_d; [apply o_ok|exact O|rewrite (proj2 o_ok); lra]). rewrite F1, F2, (proj2 o_ok). lra. }
  destruct (flt c _).
  - destruct (tenth_mul (er_tunnel fexp (dmul (bandgap m) (dq 1 2)) (temp_k m))) as [[OM BM] _]; [apply (er_range fexp X); [eapply bnd_weak; [exact HG|lia|lia]|apply warm_cold; exact W]|].
    destruct (add_d _ _ O9 OM) as [OA EA]; [apply (mid_of 0 2); lia || lra|]. apply Q; [exact OA|]. rewrite EA. pose proof (rnd64_abs (R (dq 9 10) + R (dmul (er_tunnel fexp (dmul (bandgap m) (dq 1 2)) (temp_k m)) (dq 1 10))) ltac:(lra)). lra.
  - apply Q; [exact O9|lra].
Qed.
Lemma lit_near x p q : bnd (-10) 10 x -> Rabs (R x - IZR (Z.pos p) / IZR (Z.pos q)) <= IZR (Z.pos p) / IZR (Z.pos q) * u12 -> near 1 x (IZR (Z.pos p) / IZR (Z.pos q)).
Proof.
  intros B H. apply Rabs_le_inv in H. split; [|lra]. unfold Rdiv. apply Rmult_lt_0_compat; [apply IZR_lt; lia|apply Rinv_0_lt_compat, IZR_lt; lia].
Qed.
Ltac litnear := match goal with |- near 1 ?x _ => let y := eval vm_compute in x in let H := fresh in assert (H : x = y) by (vm_compute; reflexivity); apply lit_near; [apply lit_bnd; vm_compute; reflexivity|]; rewrite H, fin_R; cbn [cond_Zopp]; unfold u12; match goal with |- context [bpow radix2 ?e] => let v := eval vm_compute in (2 ^ (- e))%Z in change (bpow radix2 e) with (/ IZR v) end; apply Rabs_le; lra end.
Lemma n278 : near 1 (dq 278 1000) (278 / 1000). Proof. litnear. Qed.
Lemma n3 : near 1 (dq 3 10) (3 / 10). Proof. litnear. Qed.
Lemma n5 : near 1 (dq 5 10) (5 / 10). Proof. litnear. Qed.
Lemma n2 : near 1 (dq 2 10) (2 / 10). Proof. litnear. Qed.
Lemma good_bnd m f : phys m -> good_factor (lat_crystal m) (temp_k m) f -> bnd 0 100 f.
Proof.
  intros [G L C W] [O [A B]]. split; [exact O|]. change (b2 0) with 1. split; [exact A|]. apply Rle_trans with (1 := B). cbn [c_barrier lat_crystal]. destruct (warm_R _ W) as [_ T]. destruct G as [_ [G _]]. change (b2 (-20)) with (/ 1048576) in G.
  assert (IG : / R (bandgap m) <= 1048576). { rewrite <- (Rinv_inv 1048576). apply Rinv_le; lra. } assert (GP : 0 < / R (bandgap m)) by (apply Rinv_0_lt_compat; lra).
  assert (Q : kBr * R (temp_k m) / R (bandgap m) <= 1048576 * 1048576). { unfold Rdiv. apply Rmult_le_compat; try lra; unfold kBr; nra. }
  assert (QP : 0 <= kBr * R (temp_k m) / R (bandgap m)). { unfold Rdiv. apply Rmult_le_pos; [unfold kBr; nra|lra]. }
  apply Rle_trans with (b2 42); [|apply bpow_le; lia]. change (b2 42) with 4398046511104. set (k := kBr * R (temp_k m) / R (bandgap m)) in *. nra.
Qed.
Lemma zero_plus x : okd x -> okd (dadd d0 x) /\ R (dadd d0 x) = R x.
Proof.
  intros [V F]. assert (E : rnd64 (R d0 + R x) = R x) by (rewrite (proj2 z_ok), Rplus_0_l; apply (rnd_R 53 1024); exact V).
  destruct (add_R 53 1024 d0 x eq_refl V eq_refl F) as (A & B & C). { rewrite E. apply (fin_bound 53 1024). exact V. } split; [split; assumption|]. unfold dadd. rewrite A. exact E.
Qed.
Lemma deposit_range m e l t mass : phys m -> masses (er_params m) t = Some mass -> zbnd (-20) 20 l ->
  exists q, chargeDeposition fexp m e l t = Ret q /\ okd q /\ 249 / 1000 * R l <= R q <= 279 / 1000 * R l * (1 + kBr * R (temp_k m) / R (bandgap m)).
Proof.
  intros P M L. destruct (deposit_form m e l t mass P M) as (fi & fv & fc & G1 & G2 & G3 & E). cbv zeta in E. eexists. split; [exact E|]. clear E.
  pose proof (good_bnd m fi P G1) as B1. pose proof (good_bnd m fv P G2) as B2. pose proof (good_bnd m fc P G3) as B3. set (charge := dadd _ (dmul (dmul _ (dq 2 10)) fc)).
  destruct (eff_range m charge P) as [OE BE]. set (eff := collectionEfficiency fexp m charge SRAM_6T) in *.
  assert (EB : bnd (-1) 0 eff). { split; [exact OE|]. change (b2 (-1)) with (/ 2). change (b2 0) with 1. lra. }
  assert (L278 : bnd (-2) (-1) (dq 278 1000)) by (apply lit_bnd; vm_compute; reflexivity). assert (L3 : bnd (-2) (-1) (dq 3 10)) by (apply lit_bnd; vm_compute; reflexivity).
  assert (L5 : bnd (-1) 0 (dq 5 10)) by (apply lit_bnd; vm_compute; reflexivity). assert (L2 : bnd (-3) (-2) (dq 2 10)) by (apply lit_bnd; vm_compute; reflexivity).
  destruct L as [->|L].
  - assert (CZ : charge = d0). { unfold charge. destruct (mul_z _ _ _ L278) as (_ & -> & _). destruct (mul_z _ _ _ L3) as (_ & -> & _). destruct (mul_z _ _ _ L5) as (_ & -> & _). destruct (mul_z _ _ _ L2) as (_ & -> & _). destruct (mul_z _ _ _ B1) as (_ & -> & _). destruct (mul_z _ _ _ B2) as (_ & -> & _). destruct (mul_z _ _ _ B3) as (_ & -> & _). reflexivity. }
    rewrite CZ. destruct (mul_z _ _ _ EB) as (_ & -> & _). split; [apply z_ok|]. rewrite (proj2 z_ok). lra.
  - destruct (near_mul 0 1 _ _ _ _ l _ _ _ L L278 (near_self _ _ _ L) n278) as [C1 C2]; try lia.
    destruct (near_mul 2 1 _ _ _ _ _ _ _ _ C1 L3 C2 n3) as [D1 D1n]; try lia. destruct (near_mul 2 1 _ _ _ _ _ _ _ _ C1 L5 C2 n5) as [D2 D2n]; try lia. destruct (near_mul 2 1 _ _ _ _ _ _ _ _ C1 L2 C2 n2) as [D3 D3n]; try lia.
    destruct (near_mul 4 0 _ _ _ _ _ fi _ _ D1 B1 D1n (near_self _ _ _ B1)) as [F1 F1n]; try lia. destruct (near_mul 4 0 _ _ _ _ _ fv _ _ D2 B2 D2n (near_self _ _ _ B2)) as [F2 F2n]; try lia. destruct (near_mul 4 0 _ _ _ _ _ fc _ _ D3 B3 D3n (near_self _ _ _ B3)) as [F3 F3n]; try lia.
    destruct (zero_plus _ (proj1 F1)) as [OZ EZ]. set (x1 := dmul (dmul (dmul l (dq 278 1000)) (dq 3 10)) fi) in *.
    assert (Z1 : bnd (-25) 130 (dadd d0 x1)). { apply (bnd_weak _ _ (-25) 130) in F1; [|lia|lia]. split; [exact OZ|]. rewrite EZ. apply F1. }
    assert (Z1n : near 5 (dadd d0 x1) (R l * (278 / 1000) * (3 / 10) * R fi)). { destruct F1n as [Q1 Q2]. split; [exact Q1|]. rewrite EZ. exact Q2. }
    destruct (near_add 5 (-25) 130 (-25) _ _ _ _ Z1 (bnd_weak _ _ (-25) 130 _ F2 ltac:(lia) ltac:(lia)) Z1n F2n) as [S1 S1n]; try lia.
    destruct (near_add 6 (-25) 131 (-27) _ _ _ _ S1 (bnd_weak _ _ (-27) 131 _ F3 ltac:(lia) ltac:(lia)) S1n (near_weak 5 6 _ _ F3n ltac:(lia))) as [S2 S2n]; try lia.
    fold charge in S2, S2n. destruct (near_mul 7 0 _ _ _ _ _ eff _ _ S2 EB S2n (near_self _ _ _ EB)) as [T1 T1n]; try lia. split; [apply T1|].
    destruct T1n as [_ T1n]. pose proof (bnd_pos _ _ _ L) as LP. destruct G1 as [_ G1], G2 as [_ G2], G3 as [_ G3]. cbn [c_barrier lat_crystal] in G1, G2, G3. set (k := 1 + kBr * R (temp_k m) / R (bandgap m)) in *.
    assert (KP : 0 < k) by lra.
    set (a := R fi) in *. set (b := R fv) in *. set (c := R fc) in *. set (ll := R l) in *. set (ee := R eff) in *.
    replace (ll * (278 / 1000) * (3 / 10) * a + ll * (278 / 1000) * (5 / 10) * b + ll * (278 / 1000) * (2 / 10) * c) with (ll * (278 / 1000) * (3 / 10 * a + 5 / 10 * b + 2 / 10 * c)) in T1n by field.
    set (s := 3 / 10 * a + 5 / 10 * b + 2 / 10 * c) in *. assert (SB : 1 <= s <= k * (1 + / 1000000000)) by (unfold s; lra).
    assert (LE1 : 899 / 1000 <= s * ee) by nra. assert (LE2 : s * ee <= k * (1 + / 1000000000)) by nra.
    replace (ll * (278 / 1000) * s * ee) with (ll * (278 / 1000) * (s * ee)) in T1n by ring. set (se := s * ee) in *. assert (W1 : ll * (278 / 1000) * (899 / 1000) <= ll * (278 / 1000) * se) by (apply Rmult_le_compat_l; lra).
    assert (W2 : ll * (278 / 1000) * se <= ll * (278 / 1000) * (k * (1 + / 1000000000))) by (apply Rmult_le_compat_l; lra). assert (LK : 0 < ll * k) by nra. change (7 + 0 + 1)%Z with 8%Z in T1n. unfold u12 in T1n.
    set (y := ll * (278 / 1000) * se) in *. clearbody y. clear -T1n W1 W2 LK LP. split; nra.
Qed.
End X.
