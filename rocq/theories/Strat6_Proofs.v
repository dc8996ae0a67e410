(** Layer policies, shares, the synergy factor. *)
From Coq Require Import String List NArith ZArith Bool SpecFloat Lia Reals Lra.
Import ListNotations.
From Flocq Require Import Core.
From Flocq.IEEE754 Require Import BinarySingleNaN.
From Verif Require Import Outcome Words Floats FloatsR HealthFloat Approx_Model Bits_Model Health_Proofs MBP6_Proofs RMA3_Proofs Power2_Proofs Power4_Proofs Strat_Model Strat_Spec Strat_Proofs Strat2_Proofs Strat3_Proofs Strat4_Proofs Strat5_Proofs.
Local Open Scope R_scope.
Local Opaque dlit dofZ dadd dsub dmul ddiv lit1em5.

Lemma nth_map_seq {A} (f : nat -> A) n i d : (i < n)%nat -> nth i (map f (seq 0 n)) d = f i.
Proof. intros H. rewrite (nth_indep _ d (f 0%nat)) by (rewrite map_length, seq_length; exact H). rewrite map_nth, seq_nth by exact H. reflexivity. Qed.
Lemma get_optimized p e i : (i < length (plevels p))%nat -> get_layer_protection (optimize_policy p e) (Z.of_nat i) = need_level e (position_need (length (plevels p)) i (nth i (psens p) S754_nan)).
Proof.
  intros H. unfold get_layer_protection, get_nth, optimize_policy. cbn [plevels]. rewrite map_length, seq_length. replace (_ && _)%bool with true by (symmetry; apply andb_true_intro; split; [apply Z.leb_le|apply Z.ltb_lt]; lia).
  rewrite Nat2Z.id, nth_map_seq by exact H. reflexivity.
Qed.
Lemma get_outside p i : (i < 0 \/ Z.of_nat (length (plevels p)) <= i)%Z -> get_layer_protection p i = BASIC_TMR.
Proof. intros H. unfold get_layer_protection, get_nth. destruct (_ && _)%bool eqn:E; [|reflexivity]. apply andb_prop in E. destruct E as [A B]. apply Z.leb_le in A. apply Z.ltb_lt in B. lia. Qed.
Lemma need_hybrid e x : saa e = true \/ fgt (solar e) (dlit 7 10) = true -> need_level e x = HYBRID_REDUNDANCY.
Proof. unfold need_level. intros [H|H]; rewrite H; [reflexivity|]. rewrite orb_true_r. reflexivity. Qed.
Lemma policy_mono p p' e e' i j : plausible e -> plausible e' -> env_le e e' -> length (plevels p') = length (plevels p) -> (Z.of_nat (length (plevels p)) < 2 ^ 31)%Z ->
  (j <= i)%nat -> (i < length (plevels p))%nat -> up_to (dofZ 1) (nth i (psens p) S754_nan) -> up_to (dofZ 1) (nth j (psens p') S754_nan) -> fle (nth i (psens p) S754_nan) (nth j (psens p') S754_nan) = true ->
  level_le (get_layer_protection (optimize_policy p e) (Z.of_nat i)) (get_layer_protection (optimize_policy p' e') (Z.of_nat j)).
Proof.
  intros P P' L E N J I S S' H. apply up_R in S; [|lia]. apply up_R in S'; [|lia]. apply fle_d in H; [|apply S|apply S']. rewrite get_optimized by exact I. rewrite get_optimized by lia. rewrite E.
  destruct (env_le_R e e' P P' L) as (Ls & Lo & _). destruct (position_R (length (plevels p)) i _ I N S) as [O1 M]. specialize (M j _ J S' H). destruct (position_R (length (plevels p)) j _ ltac:(lia) N S') as [O2 _].
  apply need_mono; auto using pl_solar.
Qed.

(** ** Shares *)
Section Shares.
Variable dexp : sf -> sf.
Definition temp_ok (e : env) : Prop := up_to (dofZ 1000) (temperature_factor dexp (temperature e)).
Lemma severity_R e : plausible e -> temp_ok e -> nz 100000000 (severity dexp e).
Proof.
  intros P T. apply up_R in T; [|lia]. destruct (dose_R e P) as (Nd & Ud & _). destruct L001 as [O3 B3], Z1 as [O1 E1]. pose proof (pl_solar e P) as Ns.
  assert (N1 : nz 22000000 (dose e)) by (split; [apply Nd|split; [apply Nd|exact Ud]]). assert (N3 : nz 1 (dlit 1 1000)) by (split; [exact O3|lra]).
  destruct (nz_mul _ _ _ _ N1 N3 ltac:(lia)) as [N4 E4].
  assert (N5 : nz 23000 (dmul (dose e) (dlit 1 1000))). { split; [apply N4|]. split; [apply N4|]. rewrite E4. apply rnd_up; [lia|]. destruct N1 as [_ ?]. nra. }
  destruct (nz_mul _ _ _ _ N5 T ltac:(lia)) as [N6 E6]. assert (N1z : nz 1 (dofZ 1)) by (split; [exact O1|lra]). destruct (nz_add _ _ _ _ N1z Ns ltac:(lia)) as [N7 _]. destruct (nz_mul _ _ _ _ N6 N7 ltac:(lia)) as [N8 _].
  destruct Z2 as [O2 E2]. assert (N2z : nz 2 (dofZ 2)) by (split; [exact O2|lra]). destruct (nz_mul _ _ _ _ N8 N2z ltac:(lia)) as [N9 _]. unfold severity. cbv zeta. destruct (saa e).
  - apply (nz_le (23000 * 1000 * (1 + 1) * 2)); [lia|exact N9].
  - apply (nz_le (23000 * 1000 * (1 + 1))); [lia|exact N8].
Qed.
Lemma importance_R sev n i s : (i < n)%nat -> (Z.of_nat n < 2 ^ 31)%Z -> nz 100000000 sev -> nz 1 s -> nz 100000000 (importance sev n i s) /\
  (forall j s', (j <= i)%nat -> nz 1 s' -> R s <= R s' -> R (importance sev n i s) <= R (importance sev n j s')).
Proof.
  intros Hi Hn Nv Ns. destruct L05 as [O5 E5], Z1 as [O1 E1].
  set (q k := ddiv (dmul (dlit 5 10) (dofZ (Z.of_nat k))) (dofZ (Z.of_nat n))).
  assert (G : forall k, (k < n)%nat -> okd (q k) /\ R (q k) = rnd64 (rnd64 (/ 2 * IZR (Z.of_nat k)) / IZR (Z.of_nat n)) /\ 0 <= R (q k) <= 1).
  { intros k Hk. destruct (nz_ofZ (Z.of_nat k) ltac:(lia)) as [Nk Ek], (nz_ofZ (Z.of_nat n) ltac:(lia)) as [Nn En]. pose proof (IZR_lt 0 (Z.of_nat n) ltac:(lia)) as Pn. pose proof (IZR_le 0 (Z.of_nat k) ltac:(lia)) as Pk. pose proof (IZR_lt (Z.of_nat k) (Z.of_nat n) ltac:(lia)) as Lk.
    assert (N5 : nz 1 (dlit 5 10)) by (split; [exact O5|lra]). destruct (nz_mul _ _ _ _ N5 Nk ltac:(lia)) as [Nm Em]. rewrite E5, Ek in Em.
    assert (Bm : 0 <= R (dmul (dlit 5 10) (dofZ (Z.of_nat k))) <= IZR (Z.of_nat n)). { split; [apply Nm|]. rewrite Em. apply rnd_up; [lia|lra]. }
    assert (Q : 0 <= R (dmul (dlit 5 10) (dofZ (Z.of_nat k))) / IZR (Z.of_nat n) <= 1).
    { split; [apply Rmult_le_pos; [lra|left; apply Rinv_0_lt_compat; lra]|]. apply Rmult_le_reg_r with (IZR (Z.of_nat n)); [lra|]. unfold Rdiv. rewrite Rmult_assoc, Rinv_l by lra. lra. }
    destruct (div_d _ (dofZ (Z.of_nat n)) (proj1 Nm) (proj1 Nn)) as [Od Ed]; [lra|rewrite En; apply midz; lra|]. rewrite En in Ed. fold (q k) in Od, Ed. split; [exact Od|]. rewrite Em in Ed. split; [exact Ed|]. rewrite Ed, <- Em. split; [apply rnd_pos; lra|apply rnd_le1; lra]. }
  assert (H : forall k, (k < n)%nat -> nz 1 (dsub (dofZ 1) (q k)) /\ R (dsub (dofZ 1) (q k)) = rnd64 (1 - R (q k))).
  { intros k Hk. destruct (G k Hk) as (Om & _ & Um). destruct (sub_d (dofZ 1) _ O1 Om) as [Os Es]; [rewrite E1; apply midz; lra|]. rewrite E1 in Es. split; [|exact Es]. split; [exact Os|]. rewrite Es. split; [apply rnd_pos; lra|apply rnd_le1; lra]. }
  unfold importance. fold (q i). destruct (H i Hi) as [Ni Ei]. destruct (nz_mul _ _ _ _ Ns Nv ltac:(lia)) as [Nw Ew]. destruct (nz_mul _ _ _ _ Nw Ni ltac:(lia)) as [Nr Er]. split; [apply (nz_le (1 * 100000000 * 1)); [lia|exact Nr]|]. intros j s' Hj Ns' L. fold (q j).
  destruct (H j ltac:(lia)) as [Nj Ej]. destruct (nz_mul _ _ _ _ Ns' Nv ltac:(lia)) as [Nw' Ew']. destruct (nz_mul _ _ _ _ Nw' Nj ltac:(lia)) as [Nr' Er'].
  rewrite Er, Er'. apply prod_mono; [split; [apply Nw|]; rewrite Ew, Ew'; apply prod_mono; [destruct Ns as [_ ?]; lra|destruct Nv as [_ ?]; lra]|]. split; [apply Ni|]. rewrite Ei, Ej. apply rnd_mono. destruct (G i Hi) as (_ & Gi & _), (G j ltac:(lia)) as (_ & Gj & _). apply Rplus_le_compat_l. apply Ropp_le_contravar. rewrite Gi, Gj. apply rnd_mono.
  apply Rmult_le_compat_r; [left; apply Rinv_0_lt_compat; apply (IZR_lt 0); lia|]. apply rnd_mono. apply Rmult_le_compat_l; [lra|]. apply IZR_le. lia.
Qed.
(** a sum of nonnegative numbers, rounded at each step, is at least each of them *)
Lemma fold_sum : forall l a A, nz A a -> Forall (nz 100000000) l -> (A + 100000000 * Z.of_nat (length l) < 2 ^ 53)%Z ->
  let s := fold_left dadd l a in nz (A + 100000000 * Z.of_nat (length l)) s /\ R a <= R s /\ Forall (fun x => R x <= R s) l.
Proof.
  induction l as [|x l IH]; intros a A Na F B; cbn [fold_left length] in *; [split; [apply (nz_le A); [lia|exact Na]|]; split; [lra|constructor]|].
  inversion F as [|? ? Nx F']; subst. destruct (nz_add _ _ _ _ Na Nx ltac:(lia)) as [Ns Es]. destruct (IH _ _ Ns F' ltac:(lia)) as (N' & L' & G').
  split; [eapply nz_le; [|exact N']; lia|]. split.
  - apply Rle_trans with (2 := L'). rewrite Es. apply rnd64_ge; [apply Na|]. destruct Nx as [_ ?]; lra.
  - constructor; [|exact G']. apply Rle_trans with (2 := L'). rewrite Es. apply rnd64_ge; [apply Nx|]. destruct Na as [_ ?]; lra.
Qed.
Definition layers_ok (sens : list sf) : Prop := Forall (up_to (dofZ 1)) sens /\ (Z.of_nat (length sens) < 2 ^ 20)%Z.
Lemma importances_R sev sens : layers_ok sens -> nz 100000000 sev -> Forall (nz 100000000) (importances sev sens).
Proof.
  intros [F N] V. unfold importances. apply Forall_forall. intros x H. apply in_map_iff in H. destruct H as (i & <- & Hi). apply in_seq in Hi. rewrite Forall_forall in F.
  apply importance_R; [lia|lia|exact V|]. apply up_R; [lia|]. apply F. apply nth_In. lia.
Qed.
Lemma share_nth a sens e i : (i < length sens)%nat -> nth i (shares (optimize_shares dexp a sens e)) S754_nan =
  let imp := importances (severity dexp e) sens in let sum := fold_left dadd imp (dofZ 0) in
  if fgt sum (dofZ 0) then dmul (ddiv (importance (severity dexp e) (length sens) i (nth i sens S754_nan)) sum) (total_res a) else ddiv (total_res a) (dofZ (Z.of_nat (length sens))).
Proof.
  intros H. unfold optimize_shares. cbn [shares]. set (f := fun x => if fgt _ _ then _ else _). unfold importances at 1. rewrite map_map. rewrite nth_map_seq by exact H. reflexivity.
Qed.
Lemma shares_R a sens e : plausible e -> temp_ok e -> layers_ok sens -> up_to (dofZ 1000000) (total_res a) ->
  forall i, (i < length sens)%nat -> okd (nth i (shares (optimize_shares dexp a sens e)) S754_nan) /\ 0 <= R (nth i (shares (optimize_shares dexp a sens e)) S754_nan) <= R (total_res a) /\
  forall j, (j <= i)%nat -> fle (nth i sens S754_nan) (nth j sens S754_nan) = true -> R (nth i (shares (optimize_shares dexp a sens e)) S754_nan) <= R (nth j (shares (optimize_shares dexp a sens e)) S754_nan).
Proof.
  intros P T LO U. apply up_R in U; [|lia]. pose proof (severity_R e P T) as V. pose proof (importances_R _ _ LO V) as F. destruct LO as [FS N]. destruct Z0 as [O0 E0].
  set (imp := importances (severity dexp e) sens) in *. assert (LI : length imp = length sens) by (unfold imp, importances; rewrite map_length, seq_length; reflexivity).
  assert (N0 : nz 0 (dofZ 0)) by (split; [exact O0|lra]). destruct (fold_sum imp (dofZ 0) 0 N0 F ltac:(rewrite LI; lia)) as ([Os Bs] & _ & Ls).
  set (sum := fold_left dadd imp (dofZ 0)) in *. set (I k := importance (severity dexp e) (length sens) k (nth k sens S754_nan)).
  assert (NS : forall k, (k < length sens)%nat -> nz 1 (nth k sens S754_nan)) by (intros k Hk; apply up_R; [lia|]; rewrite Forall_forall in FS; apply FS, nth_In; exact Hk).
  assert (NI : forall k, (k < length sens)%nat -> nz 100000000 (I k) /\ R (I k) <= R sum).
  { intros k Hk. split; [apply importance_R; [exact Hk|lia|exact V|apply NS; exact Hk]|]. rewrite Forall_forall in Ls. apply Ls. unfold imp, importances. apply in_map_iff. exists k. split; [reflexivity|]. apply in_seq. lia. }
  assert (S : forall k, (k < length sens)%nat -> nth k (shares (optimize_shares dexp a sens e)) S754_nan = if fgt sum (dofZ 0) then dmul (ddiv (I k) sum) (total_res a) else ddiv (total_res a) (dofZ (Z.of_nat (length sens)))) by (intros k Hk; exact (share_nth a sens e k Hk)).
  destruct (fgt sum (dofZ 0)) eqn:E.
  - change (fgt sum (dofZ 0)) with (flt (dofZ 0) sum) in E. apply flt_d in E; auto. rewrite E0 in E.
    assert (D : forall k, (k < length sens)%nat -> nz 1 (ddiv (I k) sum) /\ R (ddiv (I k) sum) = rnd64 (R (I k) / R sum)).
    { intros k Hk. destruct (NI k Hk) as [[Oi Bi] Li]. assert (Q : 0 <= R (I k) / R sum <= 1) by (split; [apply Rmult_le_pos; [lra|left; apply Rinv_0_lt_compat; lra]|]; apply Rmult_le_reg_r with (R sum); [lra|]; unfold Rdiv; rewrite Rmult_assoc, Rinv_l by lra; lra).
      destruct (div_d (I k) sum Oi Os ltac:(lra)) as [Od Ed]; [apply midz; lra|]. split; [|exact Ed]. split; [exact Od|]. rewrite Ed. split; [apply rnd_pos; lra|apply rnd_le1; lra]. }
    intros i Hi. rewrite S by exact Hi. destruct (D i Hi) as [Nd Ed]. destruct (nz_mul _ _ _ _ Nd U ltac:(lia)) as [Nm Em]. split; [apply Nm|]. split.
    + split; [apply Nm|]. rewrite Em. apply rnd64_le; [apply U|]. destruct Nd as [_ ?], U as [_ ?]. nra.
    + intros j Hj Hs. rewrite S by lia. destruct (D j ltac:(lia)) as [Nd' Ed']. destruct (nz_mul _ _ _ _ Nd' U ltac:(lia)) as [Nm' Em']. rewrite Em, Em'. apply prod_mono; [|destruct U as [_ ?]; lra]. split; [apply Nd|]. rewrite Ed, Ed'. apply quot_mono; [|lra].
      split; [apply NI; exact Hi|]. apply (importance_R _ _ i _ Hi ltac:(lia) V (NS i Hi)); [exact Hj|apply NS; lia|]. apply fle_d in Hs; [exact Hs|apply NS; lia|apply NS; lia].
  - intros i Hi. rewrite S by exact Hi. destruct (nz_ofZ (Z.of_nat (length sens)) ltac:(lia)) as [Nn En]. pose proof (IZR_le 1 (Z.of_nat (length sens)) ltac:(lia)) as Pn.
    destruct (nz_div _ 1 _ (dofZ (Z.of_nat (length sens))) U (proj1 Nn) ltac:(lia)) as [Nq Eq]; [lra|lia|]. split; [apply Nq|]. split.
    + split; [apply Nq|]. rewrite Eq, En. apply rnd64_le; [apply U|]. apply Rmult_le_reg_r with (IZR (Z.of_nat (length sens))); [lra|]. unfold Rdiv. rewrite Rmult_assoc, Rinv_l by lra. destruct U as [_ ?]. nra.
    + intros j Hj _. rewrite S by lia. lra.
Qed.
Lemma mul_valid x y : V64 x = true -> V64 y = true -> V64 (dmul x y) = true.
Proof.
  intros Vx Vy. pose proof (mul_equiv 53 1024 (lift 53 1024 x Vx) (lift 53 1024 y Vy)) as Q. rewrite !lift_sf in Q. change (SFmul 53 1024 x y) with (dmul x y) in Q. rewrite Q. apply valid_binary_B2SF.
Qed.
Lemma sub_valid x y : V64 x = true -> V64 y = true -> V64 (dsub x y) = true.
Proof.
  intros Vx Vy. pose proof (sub_equiv 53 1024 (lift 53 1024 x Vx) (lift 53 1024 y Vy)) as Q. rewrite !lift_sf in Q. change (SFsub 53 1024 x y) with (dsub x y) in Q. rewrite Q. apply valid_binary_B2SF.
Qed.
Lemma add_valid x y : V64 x = true -> V64 y = true -> V64 (dadd x y) = true.
Proof.
  intros Vx Vy. pose proof (add_equiv 53 1024 (lift 53 1024 x Vx) (lift 53 1024 y Vy)) as Q. rewrite !lift_sf in Q. change (SFadd 53 1024 x y) with (dadd x y) in Q. rewrite Q. apply valid_binary_B2SF.
Qed.
(** x / x *)
Lemma pos_shape x : V64 x = true -> flt (dofZ 0) x = true -> (okd x /\ 0 < R x) \/ x = S754_infinity false.
Proof.
  intros V H. destruct x as [s|s| |s m e]; [exfalso|right|exfalso|left].
  - destruct s; vm_compute in H; discriminate.
  - destruct s; [vm_compute in H; discriminate|reflexivity].
  - vm_compute in H. discriminate.
  - assert (O : okd (S754_finite s m e)) by (split; [exact V|reflexivity]). split; [exact O|]. destruct Z0 as [O0 E0]. apply flt_d in H; [|exact O0|exact O]. rewrite E0 in H. exact H.
Qed.
Lemma div_self x : okd x -> 0 < R x -> okd (ddiv x x) /\ R (ddiv x x) = 1.
Proof.
  intros O P. destruct (div_d x x O O ltac:(lra)) as [Od Ed]; [apply midz; unfold Rdiv; rewrite Rinv_r by lra; lra|]. split; [exact Od|]. rewrite Ed. unfold Rdiv. rewrite Rinv_r by lra. apply (rnd_z 1). reflexivity.
Qed.
Lemma share_one x : okd x -> R x = 1 -> share_level x = HYBRID_REDUNDANCY.
Proof.
  intros O E. destruct L03 as [O3 B3], L06 as [O6 B6], L08 as [O8 B8]. unfold share_level.
  rewrite (proj2 (flt_dF x (dlit 3 10) O O3)) by lra. rewrite (proj2 (flt_dF x (dlit 6 10) O O6)) by lra. rewrite (proj2 (flt_dF x (dlit 8 10) O O8)) by lra. reflexivity.
Qed.
Lemma single_first m now : allocated_level (alloc (pdp_new m 1 now)) 0 = HYBRID_REDUNDANCY.
Proof.
  unfold allocated_level, pdp_new, allocator_new. cbn [alloc shares repeat length nth Z.to_nat Z.of_nat]. change ((0 <? 0) || (Z.of_nat 1 <=? 0))%bool%Z with false. cbv iota.
  change (Z.of_nat 1) with 1%Z. destruct Z1 as [O E]. destruct (div_self (dofZ 1) O ltac:(lra)) as [A B]. exact (share_one _ A B).
Qed.
Lemma single_hybrid a s e : total_res a = dofZ 1 -> (forall x, a_double (dexp x)) -> a_double s -> a_double (solar e) -> a_double (proton e) -> a_double (electron e) ->
  allocated_level (optimize_shares dexp a [s] e) 0 = HYBRID_REDUNDANCY.
Proof.
  intros A Vx Vs V1 V2 V3. destruct Z1 as [O1 E1], L1em5 as [O5 _], L001 as [O3 _], L05 as [O05 _], Z2 as [O2 _], Z0 as [O0 E0].
  unfold allocated_level. change (length (shares (optimize_shares dexp a [s] e))) with 1%nat. change ((0 <? 0) || (Z.of_nat 1 <=? 0))%bool%Z with false. cbv iota. change (Z.to_nat 0) with 0%nat. rewrite share_nth by (cbn; lia). cbv zeta. cbn [length nth].
  unfold importances. cbn [length seq map nth fold_left]. rewrite A. set (x := importance (severity dexp e) 1 0 s).
  assert (VD : V64 (dose e) = true) by (apply mul_valid; [apply add_valid; assumption|apply O5]).
  assert (VF : forall t, V64 (temperature_factor dexp t) = true) by (intros t; apply mul_valid; [apply O1|apply Vx]).
  assert (VS : V64 (severity dexp e) = true).
  { unfold severity. cbv zeta. assert (V : V64 (dmul (dmul (dmul (dose e) (dlit 1 1000)) (temperature_factor dexp (temperature e))) (dadd (dofZ 1) (solar e))) = true).
    { apply mul_valid; [apply mul_valid; [apply mul_valid; [exact VD|apply O3]|apply VF]|apply add_valid; [apply O1|exact V1]]. }
    destruct (saa e); [apply mul_valid; [exact V|apply O2]|exact V]. }
  assert (VX : V64 x = true).
  { unfold x, importance. apply mul_valid; [apply mul_valid; assumption|]. apply sub_valid; [apply O1|]. apply div_valid; [apply mul_valid; [apply O05|apply O0]|]. change (Z.of_nat 1) with 1%Z. apply O1. }
  change (fgt (dadd (dofZ 0) x) (dofZ 0)) with (flt (dofZ 0) (dadd (dofZ 0) x)). destruct (flt (dofZ 0) (dadd (dofZ 0) x)) eqn:E.
  - assert (X : dadd (dofZ 0) x = x \/ x = S754_zero true).
    { change (dofZ 0) with (S754_zero false). clearbody x. clear - VX. destruct x as [[]|s| |s m e]; [right; reflexivity| | | |]; left; reflexivity. }
    destruct X as [X|X]; [|exfalso; rewrite X in E; vm_compute in E; discriminate]. rewrite X in *. destruct (pos_shape x VX E) as [[O P]|Q].
    + destruct (div_self x O P) as [Od Ed]. destruct (mul_d _ (dofZ 1) Od O1) as [Om Em]; [rewrite Ed, E1; apply midz; lra|]. apply share_one; [exact Om|]. rewrite Em, Ed, E1, Rmult_1_r. apply (rnd_z 1). reflexivity.
    + rewrite Q. clear. vm_compute. reflexivity.
  - change (Z.of_nat 1) with 1%Z. destruct (div_self (dofZ 1) O1) as [Od Ed]; [lra|]. apply share_one; assumption.
Qed.
End Shares.
(** ** Synergy *)
Lemma synergy_R t stress ys : a_double t -> a_double stress -> a_double ys -> fle (dofZ 1) (synergy_factor t stress ys) = true /\ fle (synergy_factor t stress ys) (dlit 15 10) = true.
Proof.
  intros Vt Vs Vy. unfold synergy_factor, normalized. cbv zeta. destruct Z1 as [O1 E1], L15 as [O15 E15], L05 as [O5 E5], Z0 as [O0 E0].
  assert (VM : forall a b, V64 a = true -> V64 b = true -> V64 (fmin a b) = true /\ V64 (fmax a b) = true) by (intros a b A B; unfold fmin, fmax; destruct (flt b a), (flt a b); auto).
  set (ns := fmin (dofZ 1) (ddiv stress ys)). assert (VN : V64 ns = true) by (apply VM; [apply O1|apply div_valid; assumption]).
  set (ts := fmax (dofZ 0) (ddiv (dsub t (dofZ 300)) (dofZ 50))). set (ss := fmax (dofZ 0) (ddiv (dsub ns (dlit 1 10)) (dlit 2 10))).
  destruct (nz_ofZ 300 ltac:(lia)) as [[O300 _] _], (nz_ofZ 50 ltac:(lia)) as [[O50 _] _], L01 as [O01 _], L02 as [O02 _].
  assert (VT : V64 ts = true) by (apply VM; [apply O0|apply div_valid; [apply sub_valid; [exact Vt|apply O300]|apply O50]]).
  assert (VSs : V64 ss = true) by (apply VM; [apply O0|apply div_valid; [apply sub_valid; [exact VN|apply O01]|apply O02]]).
  assert (NN : forall x, nonneg (fmax (dofZ 0) x)).
  { intros x. unfold fmax. destruct (flt (dofZ 0) x) eqn:E; [|vm_compute; exact I]. apply above in E. destruct x as [[]|[]| |[] m e]; exact E || exact I. }
  assert (NP : nonneg (dmul ts ss)) by (apply mul_nonneg; apply NN). pose proof (mul_valid ts ss VT VSs) as VP. set (p := dmul ts ss) in *. clearbody p.
  assert (P : nz 1 (fmin (dofZ 1) p)).
  { unfold fmin. destruct (flt p (dofZ 1)) eqn:E; [|split; [exact O1|lra]]. assert (Fp : fin p = true).
    { destruct p as [[]|[]| |[] m e]; try reflexivity; [destruct NP|vm_compute in E; discriminate|vm_compute in E; discriminate]. }
    assert (Op : okd p) by (split; assumption). apply flt_d in E; auto. rewrite E1 in E. split; [exact Op|]. split; [|lra].
    destruct p as [[]|[]| |[] m e]; try discriminate Fp; try (unfold R, SF2R; lra); [destruct NP|]. unfold R, SF2R, F2R. cbn. pose proof (bpow_gt_0 radix2 e). assert (0 < IZR (Z.pos m)) by (apply IZR_lt; reflexivity). apply Rmult_le_pos; lra. }
  assert (N5 : nz 1 (dlit 5 10)) by (split; [exact O5|lra]). destruct (nz_mul _ _ _ _ N5 P ltac:(lia)) as [Nm Em]. assert (N1 : nz 1 (dofZ 1)) by (split; [exact O1|lra]).
  assert (Um : R (dmul (dlit 5 10) (fmin (dofZ 1) p)) <= / 2) by (apply Rle_trans with (R (dlit 5 10)); [rewrite Em; apply rnd64_le; [exact O5|destruct P as [_ ?]; rewrite E5; lra]|lra]).
  destruct (nz_add _ _ _ _ N1 Nm ltac:(lia)) as [Na Ea]. rewrite E1 in Ea. set (v := dadd (dofZ 1) (dmul (dlit 5 10) (fmin (dofZ 1) p))) in *.
  assert (Bv : 1 <= R v <= 3/2). { rewrite Ea. split; [rewrite <- (rnd_z 1) at 1 by reflexivity; apply rnd_mono; destruct Nm as [_ ?]; lra|]. rewrite <- E15. apply rnd64_le; [exact O15|lra]. }
  assert (S : exists syn, (if (fgt t (dofZ 350) && fgt ns (dlit 3 10))%bool then dlit 15 10 else dofZ 1) = syn /\ okd syn /\ 1 <= R syn <= 3/2).
  { eexists. split; [reflexivity|]. destruct (_ && _)%bool; [split; [exact O15|lra]|split; [exact O1|lra]]. }
  destruct S as (syn & -> & Osyn & Bsyn). destruct (fmax_d syn v Osyn (proj1 Na)) as [Of Ef].
  assert (B : 1 <= R (fmax syn v) <= 3/2) by (rewrite Ef; split; [apply Rle_trans with (2 := Rmax_l _ _); lra|apply Rmax_lub; lra]).
  split; apply fle_d; auto; lra.
Qed.
