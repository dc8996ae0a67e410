(** Properties C367-C379: the lattice, the field equations and the multi-particle simulation. *)
From Coq Require Import List NArith ZArith Bool Arith Lia Reals Lra SpecFloat.
Import ListNotations.
From Flocq Require Import Core BinarySingleNaN.
From Verif Require Import Outcome Words Floats FloatsR HealthFloat Bits_Model Hw_Proofs Qft_Model Qft_Spec Qft_Proofs Qft2_Proofs Qft3_Proofs.
Local Open Scope Z_scope.

(** ** C367: construction *)
Theorem C367_construct_refuted : forall r sp t, field_new (S (length r)) (0 :: r) sp t = UB UB_div_zero.
Proof. intros. unfold field_new. cbn [length]. rewrite Nat.eqb_refl. reflexivity. Qed.
Theorem C367_construct_partial : forall D dims sp t, Forall int32 dims -> Forall (fun d => d <> 0) dims ->
  (length dims <> D -> field_new D dims sp t = Throw E_invalid_argument) /\
  (length dims = D -> Forall (fun d => 0 < d) dims -> points dims <= max_points ->
     exists f, field_new D dims sp t = Ret f /\ f_dims f = dims /\ f_type f = t /\ f_spacing f = sp /\ Z.of_nat (length (f_data f)) = points dims) /\
  (length dims = D -> ~ (Forall (fun d => 0 < d) dims /\ points dims <= max_points) ->
     field_new D dims sp t = Throw E_overflow_error \/ field_new D dims sp t = Throw E_length_error).
Proof.
  intros D dims sp t A B. assert (X : Forall (fun d => 0 < d) dims -> pos_dims dims).
  { intros P. apply Forall_forall. intros d I. pose proof (proj1 (Forall_forall _ _) P d I). pose proof (proj1 (Forall_forall _ _) A d I). cbn beta in *. big. lia. }
  split; [|split].
  - intros N. unfold field_new. apply Nat.eqb_neq in N. rewrite N. reflexivity.
  - intros L P M. rewrite (new_ok D dims sp t L (X P) M). eexists. split; [reflexivity|]. cbn [f_dims f_type f_spacing f_data]. rewrite repeat_length. pose proof (points_pos dims (X P)). repeat split; lia.
  - intros L N. apply new_bad; try assumption. intros [P M]. apply N. split; [|exact M]. eapply Forall_impl; [|exact P]. cbn beta. lia.
Qed.
Example C367_nonvacuous : Forall int32 [4; 5; 6] /\ Forall (fun d => d <> 0) [4; 5; 6] /\ Forall (fun d => 0 < d) [4; 5; 6] /\ points [4; 5; 6] <= max_points /\
  Forall int32 [4; -5; 6] /\ Forall (fun d => d <> 0) [4; -5; 6] /\ ~ Forall (fun d => 0 < d) [4; -5; 6].
Proof. big. repeat split; try (repeat constructor; lia); try (cbn; lia). intros H. inversion H; subst. inversion H3; subst. lia. Qed.

(** ** C368: bad positions are rejected; a fresh field is empty *)
Lemma new_wide D dims sp t f : field_new D dims sp t = Ret f -> Forall int32 dims -> wide f /\ f_dims f = dims.
Proof.
  intros H A. assert (LD : length dims = D). { unfold field_new in H. destruct (Nat.eqb_spec (length dims) D); [assumption|discriminate]. }
  assert (NZ : Forall (fun d => d <> 0) dims).
  { unfold field_new in H. rewrite LD, Nat.eqb_refl in H. cbn [negb] in H. destruct (total_size dims 1) as [z| | |] eqn:T; try discriminate. exact (total_nz dims 1 z T). }
  assert (W : pos_dims dims /\ points dims <= max_points).
  { assert (DP : {pos_dims dims} + {~ pos_dims dims}) by (apply Forall_dec; intros d; destruct (Z_lt_dec 0 d); destruct (Z_le_dec d int_max); (left; lia) || (right; lia)).
    destruct DP as [P|P]; [destruct (Z_le_dec (points dims) max_points) as [M|M]; [auto|]|]; exfalso; (destruct (new_bad D dims sp t LD A NZ) as [C|C]; [tauto|congruence|congruence]). }
  destruct W as [P M]. rewrite (new_ok D dims sp t LD P M) in H. injection H as <-. split; [split; assumption|reflexivity].
Qed.
Theorem C368_positions : forall D dims sp t f, field_new D dims sp t = Ret f -> Forall int32 dims ->
  (forall pos v, length pos <> D -> getFieldAt f pos = Throw E_invalid_argument /\ setFieldAt f pos v = Throw E_invalid_argument) /\
  (forall pos v, length pos = D -> ~ inside dims pos -> getFieldAt f pos = Throw E_out_of_range /\ setFieldAt f pos v = Throw E_out_of_range) /\
  (points dims <= 2 ^ 31 -> forall pos, inside dims pos -> getFieldAt f pos = Ret czero).
Proof.
  intros D dims sp t f H A. destruct (new_wide D dims sp t f H A) as [W E].
  assert (LD : length dims = D). { unfold field_new in H. destruct (Nat.eqb_spec (length dims) D); [assumption|discriminate]. }
  split; [|split].
  - intros pos v N. rewrite <- LD, <- E in N. split; [apply get_arity|apply set_arity]; exact N.
  - intros pos v L N. rewrite <- LD, <- E in L. rewrite <- E in N. split; [apply get_bad|apply set_bad]; assumption.
  - intros M pos I. destruct (new_built D dims sp t f H A M) as (B & _). rewrite <- E in I. rewrite (get_ok f pos B I). f_equal. exact (fresh_at D dims sp t f pos H A M).
Qed.
Example C368_nonvacuous : exists f, field_new 3 [4; 5; 6] d1 Proton = Ret f /\ inside [4; 5; 6] [3; 4; 5] /\ ~ inside [4; 5; 6] [3; 5; 5] /\ points [4; 5; 6] <= 2 ^ 31.
Proof. eexists. split; [vm_compute; reflexivity|]. split; [repeat constructor; lia|]. split; [intros H; inversion H; subst; inversion H5; subst; lia|cbn; lia]. Qed.

(** ** C369: a point read back is the point written, and no other point changes *)
Definition grid16 : field := mkF Proton d1 [65536; 65536] (repeat czero (Z.to_nat (points [65536; 65536]))).
Definition grid16x : field := mkF Proton d1 [65537; 65536] (repeat czero (Z.to_nat (points [65537; 65536]))).
Lemma last_point data : getFieldAt (mkF Proton d1 [65536; 65536] data) [65535; 65535] = UB UB_array_index.
Proof.
  unfold getFieldAt. rewrite calc_ok; [| split; [repeat constructor; big; lia|cbn [f_dims points]; big; lia] | repeat constructor; lia].
  cbn [obind f_dims f_data]. assert (I : to_int (rm [65535; 65535] [65536; 65536]) = -1) by (vm_compute; reflexivity). rewrite I. reflexivity.
Qed.
Lemma alias_point data v : 0 < Z.of_nat (length data) -> exists g, setFieldAt (mkF Proton d1 [65537; 65536] data) [65536; 0] v = Ret g /\ getFieldAt g [0; 0] = Ret v.
Proof.
  intros LEN. set (g := mkF Proton d1 [65537; 65536] data).
  assert (W : forall dt, wide (mkF Proton d1 [65537; 65536] dt)) by (intros dt; split; [repeat constructor; big; lia|cbn [f_dims points]; big; lia]).
  assert (I0 : to_int (rm [65536; 0] [65537; 65536]) = 0) by (vm_compute; reflexivity).
  assert (I1 : to_int (rm [0; 0] [65537; 65536]) = 0) by (vm_compute; reflexivity).
  exists (mkF Proton d1 [65537; 65536] (set_nth data 0 v)). split.
  - unfold setFieldAt. rewrite calc_ok; [|exact (W data)|repeat constructor; lia]. unfold g. cbn [obind f_dims f_data]. rewrite I0.
    change (0 <? 0) with false. cbn [orb]. replace (Z.of_nat (length data) <=? 0) with false by lia. reflexivity.
  - unfold getFieldAt. rewrite calc_ok; [|exact (W _)|repeat constructor; lia]. cbn [obind f_dims f_data]. rewrite I1.
    change (0 <? 0) with false. cbn iota. change (Z.to_nat 0) with 0%nat. rewrite set_nth_same; [reflexivity|lia].
Qed.
Theorem C369_roundtrip_refuted :
  (field_new 2 [65536; 65536] d1 Proton = Ret grid16 /\ inside [65536; 65536] [65535; 65535] /\ getFieldAt grid16 [65535; 65535] = UB UB_array_index) /\
  (field_new 2 [65537; 65536] d1 Proton = Ret grid16x /\ inside [65537; 65536] [65536; 0] /\ inside [65537; 65536] [0; 0] /\
     forall v, exists g, setFieldAt grid16x [65536; 0] v = Ret g /\ getFieldAt g [0; 0] = Ret v).
Proof.
  split; [split; [|split]|split; [|split; [|split]]].
  - apply new_ok; [reflexivity|repeat constructor; big; lia|cbn [points]; big; lia].
  - repeat constructor; lia.
  - exact (last_point _).
  - apply new_ok; [reflexivity|repeat constructor; big; lia|cbn [points]; big; lia].
  - repeat constructor; lia.
  - repeat constructor; lia.
  - intros v. refine (alias_point _ v _). rewrite repeat_length. rewrite Z2Nat.id; [|cbn [points]; lia]. cbn [points]. lia.
Qed.
Theorem C369_roundtrip_partial : forall f pos v, built f -> inside (f_dims f) pos -> exists g, setFieldAt f pos v = Ret g /\ same_shape f g /\ built g /\
  getFieldAt g pos = Ret v /\ forall q, inside (f_dims f) q -> q <> pos -> getFieldAt g q = getFieldAt f q.
Proof.
  intros f pos v B I. destruct (set_get f pos v B I) as (g & E & SH & BG & A & O). exists g. split; [exact E|]. split; [exact SH|]. split; [exact BG|].
  assert (D : f_dims g = f_dims f) by apply SH. split.
  - rewrite get_ok, A; [reflexivity|exact BG|rewrite D; exact I].
  - intros q Q N. rewrite !get_ok; try assumption; [|rewrite D; exact Q]. f_equal. apply O; assumption.
Qed.
Example C369_nonvacuous : built (uniform Photon [4; 5; 6] czero) /\ inside [4; 5; 6] [3; 4; 5] /\ inside [4; 5; 6] [0; 0; 0].
Proof. split; [split; [repeat constructor; big; lia|split; [reflexivity|cbn; lia]]|]. split; repeat constructor; lia. Qed.

(** ** C370: after any history of writes a point holds the last value written to it *)
Theorem C370_history : forall D dims sp t f h pos, field_new D dims sp t = Ret f -> Forall int32 dims -> points dims <= 2 ^ 31 -> inside dims pos ->
  getFieldAt (call_run f h) pos = Ret (last_value h pos) /\ f_dims (call_run f h) = dims /\ f_spacing (call_run f h) = sp.
Proof.
  intros D dims sp t f h pos H A M I. destruct (new_built D dims sp t f H A M) as (B & E & _ & SE & _). destruct (call_run_ok h f B) as (B2 & D2 & S2 & A2).
  rewrite <- E in I. split; [|split; congruence]. rewrite get_ok; [|exact B2|rewrite D2; exact I]. f_equal. rewrite (A2 pos I), (fresh_at D dims sp t f pos H A M). reflexivity.
Qed.
Example C370_nonvacuous : last_value [CSet [0; 0; 1] (d1, d0); CSet [9; 9; 9] (d0, d0); CSet [0; 0; 1] (d0, d1); CType Muon] [0; 0; 1] = (d0, d1) /\ inside [1; 1; 2] [0; 0; 1].
Proof. split; [reflexivity|repeat constructor; lia]. Qed.

Section Lib.
Variables (fexp fpow2 fsin fcos : sf -> sf) (cabs carg : cplx -> sf).
(** ** C371: a coherent state fills every point *)
Lemma dist2_spec dims : forall pos acc, dist2 dims pos acc =
  fold_left dadd (map (fun dp => let c := ddiv (dofZ (fst dp)) (dofZ 2) in let r := ddiv (dsub (dofZ (snd dp)) c) c in dmul r r) (combine dims pos)) acc.
Proof. induction dims as [|d r IH]; intros [|p s] acc; cbn [dist2 combine map fold_left]; try reflexivity. rewrite IH. reflexivity. Qed.
Theorem C371_coherent : forall amp phase f, built f -> exists g, initializeCoherentState fexp fsin fcos amp phase f = Ret g /\ same_shape f g /\
  forall pos, inside (f_dims f) pos ->
    let env := fexp (SFopp (centre_distance2 (f_dims f) pos)) in
    getFieldAt g pos = Ret (dmul (dmul (fcos phase) amp) env, dmul (dmul (fsin phase) amp) env).
Proof.
  intros amp phase f B. destruct (coherent_ok fexp fsin fcos amp phase f B) as (g & E & SH & A). exists g. split; [exact E|]. split; [exact SH|]. intros pos I. cbv zeta.
  rewrite get_ok; [|exact (shape_built _ _ SH B)|destruct SH as (_ & _ & D & _); rewrite D; exact I]. f_equal. rewrite (A pos I). unfold coherent_at, cscale. rewrite dist2_spec. reflexivity.
Qed.
(** ** C372: evolve *)
Theorem C372_evolve : forall q n t f, built f -> exists g, evolve fsin fcos cabs carg q n t f = Ret g /\ same_shape f g /\
  (n <= 0 -> g = f) /\
  (forall pos v, inside (f_dims f) pos -> getFieldAt f pos = Ret v ->
     getFieldAt g pos = Ret (iter (Z.to_nat n) (fun w =>
       let phase := dadd (carg w) (dmul (omega q) (time_step q)) in let k := dsub d1 (dmul (dq 1 1000) (time_step q)) in
       (dmul (dmul (fcos phase) (cabs w)) k, dmul (dmul (fsin phase) (cabs w)) k)) v)) /\
  (forall t', evolve fsin fcos cabs carg q n t' f = Ret g) /\
  (forall m, 0 <= n -> 0 <= m -> evolve fsin fcos cabs carg q (n + m) t f = evolve fsin fcos cabs carg q m t g).
Proof.
  intros q n t f B. unfold evolve. destruct (steps_ok fsin fcos cabs carg q (Z.to_nat n) f B) as (g & E & SH & A). exists g. split; [exact E|]. split; [exact SH|]. split; [|split; [|split]].
  - intros N. assert (Z0 : Z.to_nat n = 0%nat) by lia. rewrite Z0 in E. cbn [evolve_steps] in E. congruence.
  - intros pos v I G. rewrite (get_ok f pos B I) in G. injection G as <-. rewrite get_ok; [|exact (shape_built _ _ SH B)|destruct SH as (_ & _ & D & _); rewrite D; exact I]. f_equal. exact (A pos I).
  - intros _. exact E.
  - intros m N M. rewrite Z2Nat.inj_add by assumption. rewrite steps_app, E. reflexivity.
Qed.
(** ** C373: a Klein-Gordon step *)
Theorem C373_klein_gordon : forall q t f, built f ->
  (f_type f <> t -> kg_evolve fsin fcos cabs carg q t f = Throw E_invalid_argument) /\
  (f_type f = t -> exists g, kg_evolve fsin fcos cabs carg q t f = Ret g /\ same_shape f g /\
     forall pos v, inside (f_dims f) pos -> getFieldAt f pos = Ret v ->
       let phase := dadd (carg v) (dmul (time_step q) (phase_rate q)) in
       let size := dmul (dmul (cabs v) (dadd d1 (dmul (pos_amp q) (fsin (dofZ (fold_left Z.add pos 0)))))) (dsub d1 (dmul (damping q) (time_step q))) in
       getFieldAt g pos = Ret (dmul (fcos phase) size, dmul (fsin phase) size)).
Proof.
  intros q t f B. split; [apply kg_mismatch|]. intros T. destruct (kg_ok fsin fcos cabs carg q t f B T) as (g & E & SH & A). exists g. split; [exact E|]. split; [exact SH|].
  intros pos v I G. cbv zeta. rewrite (get_ok f pos B I) in G. injection G as <-. rewrite get_ok; [|exact (shape_built _ _ SH B)|destruct SH as (_ & _ & D & _); rewrite D; exact I].
  f_equal. exact (A pos I).
Qed.
(** ** C374: a Dirac step *)
Theorem C374_dirac_refuted : forall q t f, dirac_evolve q t f = f.
Proof. exact dirac_same. Qed.
(** ** C375: a Maxwell step on two photon fields of one grid *)
Theorem C375_maxwell : forall q e b, built e -> built b ->
  (f_type e <> Photon \/ f_type b <> Photon -> maxwell_evolve fsin fcos q e b = (e, b, Throw E_invalid_argument)) /\
  (f_type e = Photon -> f_type b = Photon -> couplings q Photon = None -> maxwell_evolve fsin fcos q e b = (e, b, Throw E_runtime_error)) /\
  (forall c, f_type e = Photon -> f_type b = Photon -> f_dims b = f_dims e -> couplings q Photon = Some c -> is_double c -> c <> S754_nan ->
   exists k e' b', fle d0 k = true /\ fle k d1 = true /\ (fle d0 c = true -> fle c d1 = true -> k = c) /\
     maxwell_evolve fsin fcos q e b = (e', b', Ret tt) /\ same_shape e e' /\ same_shape b b' /\
     forall pos ve vb, inside (f_dims e) pos -> getFieldAt e pos = Ret ve -> getFieldAt b pos = Ret vb ->
       let mix (x y : sf) := dadd (dmul x (dsub d1 k)) (dmul y k) in
       let co n := dmul (dq 1 10) (dofZ (nth n pos 0)) in
       let space := dadd d1 (dmul (pos_amp q) (dadd (dadd (fsin (co 0%nat)) (fcos (co 1%nat))) (fsin (co 2%nat)))) in
       let out x := dmul (dmul x space) (dsub d1 (dmul (damping q) (time_step q))) in
       getFieldAt e' pos = Ret (out (mix (fst ve) (fst vb)), out (mix (snd ve) (snd vb))) /\
       getFieldAt b' pos = Ret (out (mix (fst vb) (fst ve)), out (mix (snd vb) (snd ve)))).
Proof.
  intros q e b Be Bb. split; [apply maxwell_type|]. split; [apply maxwell_nocoupling|]. intros c Te Tb D C V N.
  destruct (maxwell_ok fsin fcos q c e b Be Bb D Te Tb C) as (e' & b' & EQ & S1 & S2 & A). exists (clamp_coupling c), e', b'.
  assert (K : fle d0 (clamp_coupling c) = true /\ fle (clamp_coupling c) d1 = true /\ (fle d0 c = true -> fle c d1 = true -> clamp_coupling c = c)).
  { assert (DC : dbl c) by (split; assumption). assert (O1 : okd d1) by (split; vm_compute; reflexivity). assert (O0 : okd d0) by (split; reflexivity).
    pose proof (okd_dbl _ O1) as D1. pose proof (okd_dbl _ O0) as D0. unfold clamp_coupling, fmax, fmin.
    assert (L10 : flt d1 d0 = false) by (vm_compute; reflexivity). assert (L01 : fle d0 d1 = true) by (vm_compute; reflexivity). assert (L11 : fle d1 d1 = true) by (vm_compute; reflexivity). assert (L00 : fle d0 d0 = true) by reflexivity.
    destruct (flt c d0) eqn:X.
    - rewrite L10. split; [exact L00|]. split; [exact L01|]. intros Y _. apply (proj1 (ltE c d0 DC D0)) in X. apply (proj1 (leE d0 c D0 DC)) in Y. lra.
    - assert (Y : fle d0 c = true). { apply (proj2 (leE d0 c D0 DC)). destruct (Rle_or_lt (E d0) (E c)); [assumption|]. apply (proj2 (ltE c d0 DC D0)) in H. congruence. }
      destruct (flt d1 c) eqn:Z1.
      + split; [exact L01|]. split; [exact L11|]. intros _ Z2. apply (proj1 (ltE d1 c D1 DC)) in Z1. apply (proj1 (leE c d1 DC D1)) in Z2. lra.
      + split; [exact Y|]. split; [|reflexivity]. apply (proj2 (leE c d1 DC D1)). destruct (Rle_or_lt (E c) (E d1)); [assumption|]. apply (proj2 (ltE d1 c D1 DC)) in H. congruence. }
  destruct K as (K1 & K2 & K3). split; [exact K1|]. split; [exact K2|]. split; [exact K3|]. split; [exact EQ|]. split; [exact S1|]. split; [exact S2|].
  intros pos ve vb I G1 G2. cbv zeta. rewrite (get_ok e pos Be I) in G1. rewrite (get_ok b pos Bb) in G2 by (rewrite D; exact I). injection G1 as <-. injection G2 as <-.
  destruct (A pos I) as [A1 A2]. split.
  - rewrite get_ok; [|exact (shape_built _ _ S1 Be)|destruct S1 as (_ & _ & X & _); rewrite X; exact I]. rewrite A1. reflexivity.
  - rewrite get_ok; [|exact (shape_built _ _ S2 Bb)|destruct S2 as (_ & _ & X & _); rewrite X, D; exact I]. rewrite A2. reflexivity.
Qed.
(** ** C376: a Maxwell step that throws leaves the fields alone *)
Lemma mul_d0 x : dmul x d0 <> d1.
Proof. assert (E : d1 = S754_finite false 4503599627370496 (-52)) by (vm_compute; reflexivity). rewrite E. destruct x; cbn; congruence. Qed.
Lemma ret_inj {A} (x y : A) : Ret x = Ret y -> x = y.
Proof. intros H. injection H. trivial. Qed.
Lemma last_scale q c pos e b : exists x, fst (fst (maxwell_pair fsin fcos q c pos e b)) = dmul x (dsub d1 (dmul (damping q) (time_step q))).
Proof. eexists. reflexivity. Qed.
Definition wide_e : field := uniform Photon [1; 1; 2] (d1, d0).
Definition narrow_b : field := uniform Photon [1; 1; 1] czero.
Lemma uniform_built t dims v : pos_dims dims -> points dims <= 2 ^ 31 -> built (uniform t dims v).
Proof. intros P M. unfold built, uniform. cbn [f_dims f_data]. rewrite repeat_length. pose proof (points_pos dims P). split; [exact P|]. split; lia. Qed.
Lemma uniform_get t dims v pos : pos_dims dims -> points dims <= 2 ^ 31 -> inside dims pos -> getFieldAt (uniform t dims v) pos = Ret v.
Proof.
  intros P M I. rewrite (get_ok _ pos (uniform_built t dims v P M)) by exact I. f_equal. unfold at_, uniform. cbn [f_dims f_data].
  pose proof (rm_range dims pos I). assert (L : (Z.to_nat (rm pos dims) < Z.to_nat (points dims))%nat) by lia. revert L. generalize (Z.to_nat (rm pos dims)) (Z.to_nat (points dims)).
  intros a b. revert a. induction b as [|b IH]; intros [|a] L; cbn; try lia; [reflexivity|apply IH; lia].
Qed.
Theorem C376_atomic_refuted : exists q e b pos e' b', built e /\ built b /\ inside (f_dims e) pos /\
  maxwell_evolve fsin fcos q e b = (e', b', Throw E_out_of_range) /\ getFieldAt e' pos <> getFieldAt e pos.
Proof.
  assert (P1 : pos_dims [1; 1; 2]) by (repeat constructor; big; lia). assert (P2 : pos_dims [1; 1; 1]) by (repeat constructor; big; lia).
  assert (M1 : points [1; 1; 2] <= 2 ^ 31) by (cbn; lia). assert (M2 : points [1; 1; 1] <= 2 ^ 31) by (cbn; lia).
  pose proof (uniform_built Photon _ (d1, d0) P1 M1) as Be. pose proof (uniform_built Photon _ czero P2 M2) as Bb.
  assert (I0 : inside [1; 1; 2] [0; 0; 0]) by (repeat constructor; lia). assert (I1 : inside [1; 1; 2] [0; 0; 1]) by (repeat constructor; lia). assert (J0 : inside [1; 1; 1] [0; 0; 0]) by (repeat constructor; lia).
  set (c := clamp_coupling (dq 1 10)). set (m := maxwell_pair fsin fcos unit_damping c [0; 0; 0] (d1, d0) czero).
  destruct (set_get wide_e [0; 0; 0] (fst m) Be I0) as (e1 & E1 & S1 & B1 & A1 & _). destruct (set_get narrow_b [0; 0; 0] (snd m) Bb J0) as (b1 & F1 & T1 & C1 & _ & _).
  exists unit_damping, wide_e, narrow_b, [0; 0; 0], e1, b1. split; [exact Be|]. split; [exact Bb|]. split; [exact I0|]. split.
  - unfold maxwell_evolve. change (negb (ptype_eqb (f_type wide_e) Photon) || negb (ptype_eqb (f_type narrow_b) Photon)) with false. cbn iota.
    change (getCoupling unit_damping Photon) with (Ret (dq 1 10)). fold c. change (positions (f_dims wide_e)) with [[0; 0; 0]; [0; 0; 1]]. cbn [maxwell_loop].
    assert (G1 : getFieldAt wide_e [0; 0; 0] = Ret (d1, d0)) by exact (uniform_get Photon _ (d1, d0) [0; 0; 0] P1 M1 I0). assert (G2 : getFieldAt narrow_b [0; 0; 0] = Ret czero) by exact (uniform_get Photon _ czero [0; 0; 0] P2 M2 J0). rewrite G1, G2. match goal with |- context [maxwell_pair ?a ?b ?qq ?cc [0; 0; 0] ?x ?y] => change (maxwell_pair a b qq cc [0; 0; 0] x y) with m end.
    destruct m as [m1 m2] eqn:EM. cbn [fst snd] in *. rewrite E1, F1.
    assert (D1 : f_dims e1 = [1; 1; 2]) by (destruct S1 as (_ & _ & X & _); exact X). assert (D2 : f_dims b1 = [1; 1; 1]) by (destruct T1 as (_ & _ & X & _); exact X).
    rewrite (get_ok e1 [0; 0; 1] B1) by (rewrite D1; exact I1).
    rewrite (get_bad b1 [0; 0; 1]); [reflexivity|exact (built_wide _ C1)|rewrite D2; reflexivity|]. rewrite D2. intros H. repeat match goal with X : inside (_ :: _) _ |- _ => unfold inside in X | X : Forall2 _ (_ :: _) _ |- _ => inversion X; clear X; subst end. lia.
  - assert (D1 : f_dims e1 = [1; 1; 2]) by (destruct S1 as (_ & _ & X & _); exact X). rewrite (get_ok e1 [0; 0; 0] B1) by (rewrite D1; exact I0). rewrite A1.
    unfold wide_e. rewrite (uniform_get Photon _ (d1, d0) [0; 0; 0] P1 M1 I0). intros H. apply ret_inj in H. apply (f_equal fst) in H. unfold m in H. destruct (last_scale unit_damping c [0; 0; 0] (d1, d0) czero) as [x X]. rewrite X in H.
    assert (Z0 : dsub d1 (dmul (damping unit_damping) (time_step unit_damping)) = d0) by (vm_compute; reflexivity). rewrite Z0 in H. exact (mul_d0 _ H).
Qed.
(** ** C377: energy *)
Theorem C377_energy : abs_lib cabs -> forall q t f, built f ->
  let kind := match t with Some k => k | None => f_type f end in
  (masses q kind = None -> calculateTotalEnergy cabs q t f = Throw E_runtime_error) /\
  (forall mass, masses q kind = Some mass -> finite_double mass -> flt d0 mass = true -> exists e, calculateTotalEnergy cabs q t f = Ret e /\ flt e d0 = false) /\
  (forall mass, masses q kind = Some mass -> finite_double mass -> flt d0 mass = true -> finite_double (hbar q) -> finite_double (f_spacing f) ->
     (bpow radix2 (-500) <= R (f_spacing f) <= bpow radix2 500)%R ->
     (forall pos, inside (f_dims f) pos -> getFieldAt f pos = Ret czero) -> calculateTotalEnergy cabs q t f = Ret d0).
Proof.
  intros [AS AZ] q t f B. cbv zeta. split; [|split].
  - intros M. apply energy_throw. exact M.
  - intros mass M [V F] P. assert (SM : signed false mass) by (destruct mass as [[]|[]| |[] m e]; cbn in *; try discriminate; reflexivity).
    destruct (energy_sign cabs q t f mass B M SM AS) as (e & E & S). exists e. split; [exact E|]. destruct e as [s|s| |s m x]; cbn in S; subst; reflexivity.
  - intros mass M [V F] P [VH FH] [VS FS] SP Z. destruct (square_ok (f_spacing f) VS FS SP) as [N NZ].
    apply (vacuum_energy cabs q t f mass); try assumption.
    + intros pos I. specialize (Z pos I). rewrite (get_ok f pos B I) in Z. congruence.
    + intros [s E]. rewrite E in P. destruct s; discriminate.
Qed.
(** ** C378: the number of steps of the simulation *)
Lemma kg_scale q pos v : exists x y, fst (kg_value fsin fcos cabs carg q pos v) = dmul x (dmul y (dsub d1 (dmul (damping q) (time_step q)))).
Proof. eexists. eexists. reflexivity. Qed.
Lemma mul_mul_d0 x y : dmul x (dmul y d0) <> d1.
Proof.
  assert (E : d1 = S754_finite false 4503599627370496 (-52)) by (vm_compute; reflexivity). rewrite E.
  assert (DY : dmul y d0 = S754_nan \/ is_zero (dmul y d0)) by (destruct y; cbn; auto; right; eexists; reflexivity).
  destruct DY as [DY|[s DY]]; rewrite DY; destruct x; cbn; discriminate.
Qed.
Notation sim := (simulateMultiParticleInteraction fsin fcos cabs carg).
Theorem C378_steps_refuted : (forall fs q s1 s2, sim fs q s1 = sim fs q s2) /\
  exists q fs fs' o, Forall built fs /\ sim fs q 0 = (fs', o) /\ fs' <> fs.
Proof.
  split; [reflexivity|]. assert (P2 : pos_dims [1; 1; 1]) by (repeat constructor; big; lia). assert (M2 : points [1; 1; 1] <= 2 ^ 31) by (cbn; lia).
  pose proof (uniform_built Neutron _ (d1, d0) P2 M2) as B. set (f := uniform Neutron [1; 1; 1] (d1, d0)) in *.
  destruct (kg_ok fsin fcos cabs carg unit_damping Neutron f B eq_refl) as (g & E & SH & A).
  assert (BF : Forall built [f]) by (constructor; [exact B|constructor]).
  destruct (energies_ret cabs unit_damping [f] BF) as (es & EE & _). { intros h [<-|[]]. discriminate. }
  assert (EV : evolve_all fsin fcos cabs carg unit_damping [f] = ([g], Ret tt)). { cbn [evolve_all]. change (f_type f) with Neutron. cbn iota. rewrite E. reflexivity. }
  exists unit_damping, [f]. unfold simulateMultiParticleInteraction. rewrite EE, EV. eexists. eexists. split; [exact BF|]. split; [reflexivity|].
  intros H. assert (GF : g = f) by congruence. assert (I : inside (f_dims f) [0; 0; 0]) by (repeat constructor; lia). specialize (A _ I). rewrite GF in A.
  apply (f_equal fst) in A. destruct (kg_scale unit_damping [0; 0; 0] (at_ f [0; 0; 0])) as (x & y & X). rewrite X in A.
  assert (Z0 : dsub d1 (dmul (damping unit_damping) (time_step unit_damping)) = d0) by (vm_compute; reflexivity). rewrite Z0 in A.
  assert (V : fst (at_ f [0; 0; 0]) = d1) by reflexivity. rewrite V in A. exact (mul_mul_d0 _ _ (eq_sym A)).
Qed.
Theorem C378_steps_partial : forall fs q steps fs' o, Forall built fs -> sim fs q steps = (fs', o) ->
  Forall2 same_shape fs fs' /\ (forall l, o = Ret l -> length l = length fs).
Proof. intros. eapply sim_shape; eassumption. Qed.
(** ** C379: the simulation refuses unknown particles before it changes anything; fermion fields keep their energy *)
Theorem C379_simulate : forall fs q steps, Forall built fs ->
  ((exists f, In f fs /\ masses q (f_type f) = None) -> sim fs q steps = (fs, Throw E_runtime_error)) /\
  ((forall f, In f fs -> masses q (f_type f) <> None) -> (forall f, In f fs -> f_type f = Electron \/ f_type f = Proton \/ f_type f = Positron \/ f_type f = Muon) ->
     exists l, sim fs q steps = (fs, Ret l) /\ length l = length fs /\ Forall (fun x => x = d0 \/ x = S754_nan) l).
Proof.
  intros fs q steps B. split; [intros H; apply sim_nomass; assumption|]. intros M F. destruct (sim_fermions fsin fcos cabs carg q fs steps B M F) as (es & E & S).
  eexists. split; [exact S|]. destruct (energies_ret cabs q fs B M) as (es' & E' & L). rewrite E in E'. injection E' as <-. rewrite map_length. split; [exact L|].
  apply Forall_forall. intros x I. apply in_map_iff in I. destruct I as (y & <- & _). destruct (fin y); auto.
Qed.
End Lib.
Example C371_nonvacuous : built (uniform Photon [4; 5; 6] czero) /\ inside [4; 5; 6] [3; 4; 5].
Proof. split; [apply uniform_built; [repeat constructor; big; lia|cbn; lia]|repeat constructor; lia]. Qed.
Example C372_nonvacuous : built (uniform Electron [7] (d1, d1)) /\ getFieldAt (uniform Electron [7] (d1, d1)) [6] = Ret (d1, d1).
Proof. split; [apply uniform_built; [repeat constructor; big; lia|cbn; lia]|]. apply uniform_get; [repeat constructor; big; lia|cbn; lia|repeat constructor; lia]. Qed.
Example C375_nonvacuous : built wide_e /\ f_type wide_e = Photon /\ couplings default_qparams Photon = Some (dq 1 10) /\ is_double (dq 1 10) /\ dq 1 10 <> S754_nan.
Proof. split; [apply uniform_built; [repeat constructor; big; lia|cbn; lia]|]. split; [reflexivity|]. split; [reflexivity|]. split; [vm_compute; reflexivity|]. vm_compute. discriminate. Qed.
Example C377_nonvacuous : exists cabs, abs_lib cabs /\ finite_double (dq 16726219 (10 ^ 34)%positive) /\ flt d0 (dq 16726219 (10 ^ 34)%positive) = true /\ finite_double (hbar default_qparams) /\
  getFieldAt (uniform Proton [4; 4; 4] czero) [1; 2; 3] = Ret czero.
Proof.
  exists (fun _ => d0). split; [split; [reflexivity|reflexivity]|]. split; [split; vm_compute; reflexivity|]. split; [vm_compute; reflexivity|]. split; [split; vm_compute; reflexivity|].
  apply uniform_get; [repeat constructor; big; lia|cbn; lia|repeat constructor; lia].
Qed.
Example C379_nonvacuous : Forall built [uniform Electron [2; 2; 2] (d1, d0); uniform Proton [3; 3; 3] (d0, d1)] /\ masses default_qparams Electron <> None /\ masses default_qparams Muon = None.
Proof. split; [|split; [discriminate|reflexivity]]. constructor; [|constructor; [|constructor]]; (apply uniform_built; [repeat constructor; big; lia|cbn; lia]). Qed.
Print Assumptions C367_construct_refuted.
Print Assumptions C367_construct_partial.
Print Assumptions C368_positions.
Print Assumptions C369_roundtrip_refuted.
Print Assumptions C369_roundtrip_partial.
Print Assumptions C370_history.
Print Assumptions C371_coherent.
Print Assumptions C372_evolve.
Print Assumptions C373_klein_gordon.
Print Assumptions C374_dirac_refuted.
Print Assumptions C375_maxwell.
Print Assumptions C376_atomic_refuted.
Print Assumptions C377_energy.
Print Assumptions C378_steps_refuted.
Print Assumptions C378_steps_partial.
Print Assumptions C379_simulate.
