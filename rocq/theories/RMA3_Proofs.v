From Coq Require Import List NArith ZArith Bool Lia Permutation Reals Lra Psatz SpecFloat.
From Flocq Require Import Core.
From Flocq.IEEE754 Require Import BinarySingleNaN.
Import ListNotations.
From Verif Require Import Outcome Words Arith Floats FloatsR HealthFloat FloatsS BitsFloat_Proofs RMA_Model RMA_Spec RMA_Proofs RMA2_Proofs.
Local Open Scope R_scope.

Notation eps := (/ 9007199254740992).
Lemma ofZ_ex z : (Z.abs z < 2 ^ 53)%Z -> okd (dofZ z) /\ R (dofZ z) = IZR z.
Proof.
  intros H. destruct (ofZ_d z) as [O E]; [lia|]. split; [exact O|]. rewrite E.
  replace (IZR z) with (IZR z * bpow radix2 0) by (cbn; lra). apply fmt64; lia.
Qed.
Lemma rnd_int z : (Z.abs z < 2 ^ 53)%Z -> rnd64 (IZR z) = IZR z.
Proof. intros H. replace (IZR z) with (IZR z * bpow radix2 0) by (cbn; lra). apply fmt64; lia. Qed.

Definition weightZ (c : crit) : Z := match c with MISSION => 10 | HIGHLY => 5 | MODERATELY => 2 | LOW => 1 end%Z.
Lemma weight_R c : okd (crit_weight c) /\ R (crit_weight c) = IZR (weightZ c).
Proof. destruct c; apply ofZ_ex; reflexivity. Qed.
Lemma weight_imp c : IZR (weightZ c) = importance c.
Proof. destruct c; reflexivity. Qed.
Definition factorR (p : placement) : Rdefinitions.R := match p with PHigh => 1 / 10 | PModerate => 3 / 10 | PMinimal => 6 / 10 | PUnprot => 8 / 10 | PSystem => 1 end.
Lemma factor_R p : okd (place_factor p) /\ 9 / 100 <= R (place_factor p) <= 1 /\ factorR p * (1 - eps) <= R (place_factor p) <= factorR p * (1 + eps).
Proof.
  destruct p; (split; [split; vm_compute; reflexivity|]); vm_compute place_factor; unfold R, SF2R, F2R, factorR; simpl; lra.
Qed.

Definition exactR (n : N) (c : crit) (p : placement) : Rdefinitions.R := IZR (Z.of_N n) * importance c * factorR p.
Lemma sizeZ n : (1 <= n)%N -> 1 <= IZR (Z.of_N n).
Proof. intros H. apply IZR_le. lia. Qed.
Lemma risk_R n c p : (1 <= n)%N -> (n <= 2 ^ 49)%N ->
  okd (risk n c p) /\ 9 / 200 <= R (risk n c p) <= 10 * IZR (Z.of_N n) /\
  exactR n c p * (1 - 3 * eps) <= R (risk n c p) <= exactR n c p * (1 + 3 * eps).
Proof.
  intros H1 H2. assert (HN : (n <= 562949953421312)%N) by exact H2. clear H2.
  pose proof (sizeZ _ H1) as Hs. assert (Hs2 : IZR (Z.of_N n) <= 562949953421312) by (apply IZR_le; lia).
  destruct (ofZ_ex (Z.of_N n)) as [O1 R1]; [lia|]. destruct (weight_R c) as [O2 R2].
  assert (W : (1 <= weightZ c <= 10)%Z) by (destruct c; cbn; lia).
  assert (W' : 1 <= IZR (weightZ c) <= 10) by (split; apply IZR_le; lia).
  destruct (mul_d (dofZ (Z.of_N n)) (crit_weight c) O1 O2) as [O3 R3]; [rewrite R1, R2; unfold mid; nra|].
  assert (PZ : (0 <= Z.of_N n * weightZ c <= 5629499534213120)%Z) by (clear -W HN; nia).
  rewrite R1, R2, <- mult_IZR, rnd_int in R3 by (clear -PZ; lia).
  destruct (factor_R p) as (O4 & R4 & R5).
  set (q := R (place_factor p)) in *. rewrite mult_IZR in R3.
  assert (B : 1 <= IZR (Z.of_N n) * IZR (weightZ c) <= 10 * IZR (Z.of_N n)) by nra.
  set (a := IZR (Z.of_N n) * IZR (weightZ c)) in *.
  destruct (mul_d (dmul (dofZ (Z.of_N n)) (crit_weight c)) (place_factor p) O3 O4) as [O6 R6]; [rewrite R3; fold q; unfold mid; nra|].
  rewrite R3 in R6. fold q in R6. unfold risk. split; [exact O6|]. rewrite R6.
  assert (Q : 9 / 100 <= a * q) by nra.
  pose proof (rnd64_rel (a * q) (small_normal (a * q) ltac:(lra))) as Rel.
  split; [split|].
  - lra.
  - destruct (ofZ_ex (10 * Z.of_N n)) as [O7 R7]; [lia|]. rewrite mult_IZR in R7.
    rewrite <- R7. apply rnd64_le; [exact O7|]. rewrite R7. nra.
  - unfold exactR. rewrite <- weight_imp. fold a.
    assert (F : 0 < factorR p) by (destruct p; cbn; lra).
    assert (AF : 0 < a * factorR p) by nra.
    assert (L : a * factorR p * (1 - eps) <= a * q) by nra.
    assert (U : a * q <= a * factorR p * (1 + eps)) by nra.
    set (x := a * factorR p) in *. set (y := a * q) in *. clearbody x y. split; lra.
Qed.

(* accumulating *)
Notation item := (N * crit * placement)%type.
Definition addi (u : sf * N) (i : item) : sf * N := let '(n, c, p) := i in (dadd (fst u) (risk n c p), add64 (snd u) n).
Fixpoint isum (l : list item) : N := match l with [] => 0%N | (n, _, _) :: r => (n + isum r)%N end.
Fixpoint iexact (l : list item) : Rdefinitions.R := match l with [] => 0 | (n, c, p) :: r => exactR n c p + iexact r end.
Definition item_of (sy : bool) (r : mrec) : item := (msize r, mcrit r, if sy then PSystem else mplace r).
Lemma add_risk_items sy l : forall u, add_risk sy u l = fold_left addi (map (item_of sy) l) u.
Proof. induction l as [|r q IH]; intros u; [reflexivity|]. cbn [add_risk fold_left map]. rewrite <- IH. reflexivity. Qed.
Lemma exactR_pos n c p : (1 <= n)%N -> 9 / 100 <= exactR n c p.
Proof.
  intros H. pose proof (sizeZ _ H). unfold exactR. assert (1 <= importance c) by (destruct c; cbn; lra).
  assert (1 / 10 <= factorR p) by (destruct p; cbn; lra). assert (1 <= IZR (Z.of_N n) * importance c) by nra. nra.
Qed.
Lemma acc_step S T k x tx s' : 0 <= T -> 0 <= k -> (5 * k + 3) * eps <= 1 -> 0 < tx ->
  T * (1 - 5 * k * eps) <= S <= T * (1 + 5 * k * eps) -> tx * (1 - 3 * eps) <= x <= tx * (1 + 3 * eps) ->
  (S + x) * (1 - eps) <= s' <= (S + x) * (1 + eps) ->
  (T + tx) * (1 - 5 * (k + 1) * eps) <= s' <= (T + tx) * (1 + 5 * (k + 1) * eps).
Proof.
  intros HT Hk Hb Hx HS HX Hs.
  assert (E : 0 < eps) by lra. set (e := eps) in *. assert (E1 : 10 * e < 1) by (unfold e; lra). clearbody e.
  assert (A1 : 0 <= T * (5 * k * e)) by (apply Rmult_le_pos; [lra|]; apply Rmult_le_pos; lra).
  assert (A2 : T * (5 * k * e) <= T) by nra.
  assert (A3 : 0 <= k * e) by nra.
  assert (A4 : 0 <= tx * (k * e)) by nra.
  split.
  - assert ((T + tx) * (1 - 5 * (k + 1) * e) <= (S + x) * (1 - e)); [|lra].
    assert ((T * (1 - 5 * k * e) + tx * (1 - 3 * e)) * (1 - e) <= (S + x) * (1 - e)) by nra.
    assert ((T + tx) * (1 - 5 * (k + 1) * e) <= (T * (1 - 5 * k * e) + tx * (1 - 3 * e)) * (1 - e)); [|lra].
    assert (0 <= T * (5 * k * e) * e) by nra. nra.
  - assert ((S + x) * (1 + e) <= (T + tx) * (1 + 5 * (k + 1) * e)); [|lra].
    assert ((S + x) * (1 + e) <= (T * (1 + 5 * k * e) + tx * (1 + 3 * e)) * (1 + e)) by nra.
    assert ((T * (1 + 5 * k * e) + tx * (1 + 3 * e)) * (1 + e) <= (T + tx) * (1 + 5 * (k + 1) * e)); [|lra].
    assert (T * (5 * k * e) * e <= T * e) by nra. 
    assert (tx * (3 * e * e) <= tx * e * (3/10)) by nra. nra.
Qed.
Lemma acc l : forall S tot T k, okd S -> 0 <= R S <= 10 * IZR (Z.of_N tot) -> 0 <= T -> (k <= tot)%N ->
  T * (1 - 5 * IZR (Z.of_N k) * eps) <= R S <= T * (1 + 5 * IZR (Z.of_N k) * eps) ->
  (tot + isum l <= 2 ^ 49)%N -> Forall (fun i => (1 <= fst (fst i))%N) l ->
  exists S', fold_left addi l (S, tot) = (S', (tot + isum l)%N) /\ okd S' /\ 0 <= R S' <= 10 * IZR (Z.of_N (tot + isum l)) /\
    (let k' := IZR (Z.of_N (k + N.of_nat (length l))) in
     (T + iexact l) * (1 - 5 * k' * eps) <= R S' <= (T + iexact l) * (1 + 5 * k' * eps)).
Proof.
  induction l as [|[[n c] p] r IH]; intros S tot T k O HS HT Hk HE Hb Hf; cbn [fold_left isum iexact length].
  - exists S. rewrite !N.add_0_r. split; [reflexivity|]. split; [exact O|]. split; [exact HS|]. cbv zeta. change (N.of_nat 0) with 0%N. rewrite Rplus_0_r, ?N.add_0_r. exact HE.
  - inversion Hf as [|? ? Hn Hf']; subst. cbn [fst] in Hn. cbn [isum] in Hb. change (2 ^ 49)%N with 562949953421312%N in *.
    destruct (risk_R n c p Hn) as (O1 & B1 & X1); [cbn [isum] in *; lia|].
    assert (Ht : IZR (Z.of_N tot) <= 562949953421312) by (apply IZR_le; lia).
    assert (Hn' : IZR (Z.of_N n) <= 562949953421312) by (apply IZR_le; lia).
    destruct (add_d S (risk n c p) O O1) as [O2 R2]; [unfold mid; lra|].
    cbn [addi fst snd]. assert (add64 tot n = (tot + n)%N) as -> by (apply add64_small; rewrite p64; lia).
    pose proof (rnd64_rel (R S + R (risk n c p)) (small_normal (R S + R (risk n c p)) ltac:(lra))) as Rel. rewrite <- R2 in Rel.
    assert (IZR (Z.of_N k) <= 562949953421312) by (apply IZR_le; lia).
    assert (0 <= IZR (Z.of_N k)) by (apply IZR_le; lia).
    pose proof (exactR_pos n c p Hn).
    destruct (IH (dadd S (risk n c p)) (tot + n)%N (T + exactR n c p) (k + 1)%N) as (S' & E1 & E2 & E3 & E4); auto.
    + rewrite R2. split.
      * destruct (ofZ_ex 0 ltac:(reflexivity)) as [Oz Rz]. rewrite <- Rz. apply rnd64_ge; [exact Oz|]. rewrite Rz. lra.
      * destruct (ofZ_ex (10 * Z.of_N (tot + n))) as [Oz Rz]; [lia|]. rewrite mult_IZR in Rz. rewrite <- Rz. apply rnd64_le; [exact Oz|].
        rewrite Rz, N2Z.inj_add, plus_IZR. lra.
    + lra.
    + lia.
    + rewrite N2Z.inj_add, plus_IZR. apply (acc_step (R S) T _ (R (risk n c p)) (exactR n c p)); auto; lra.
    + change (2 ^ 49)%N with 562949953421312%N. lia.
    + exists S'. rewrite N.add_assoc. split; [exact E1|]. split; [exact E2|]. split; [exact E3|]. rewrite <- Rplus_assoc.
      replace (k + N.of_nat (Datatypes.S (length r)))%N with (k + 1 + N.of_nat (length r))%N by lia. exact E4.
Qed.
Lemma isum_app a b : isum (a ++ b) = (isum a + isum b)%N.
Proof. induction a as [|[[n c] p] r IH]; simpl; [reflexivity|]. rewrite IH. lia. Qed.
Lemma iexact_app a b : iexact (a ++ b) = iexact a + iexact b.
Proof. induction a as [|[[n c] p] r IH]; simpl; [lra|]. rewrite IH. lra. Qed.
Lemma len_isum l : Forall (fun i : item => (1 <= fst (fst i))%N) l -> (N.of_nat (length l) <= isum l)%N.
Proof. induction 1 as [|[[n c] p] r Hn _ IH]; cbn [length isum fst] in *; [lia|]. lia. Qed.
Lemma iexact_nonneg l : Forall (fun i : item => (1 <= fst (fst i))%N) l -> 0 <= iexact l.
Proof. induction 1 as [|[[n c] p] r Hn _ IH]; cbn [iexact]; [lra|]. pose proof (exactR_pos n c p Hn). lra. Qed.

Theorem score_items s (items := map (item_of false) (managed s) ++ map (item_of true) (sysmem s)) :
  (isum items <= 2 ^ 49)%N -> Forall (fun i => (1 <= fst (fst i))%N) items -> items <> [] ->
  okd (vulnerability_score s) /\ 0 <= R (vulnerability_score s) <= 1 /\
  let m := iexact items / (10 * IZR (Z.of_N (isum items))) in
  Rabs (R (vulnerability_score s) - m) <= (5 * INR (length items) + 2) * eps * m.
Proof.
  intros Hb Hf Hne. destruct (ofZ_ex 0 ltac:(reflexivity)) as [Oz Rz].
  destruct (acc items (dofZ 0) 0%N 0 0%N) as (S & E1 & E2 & E3 & E4); auto; try (rewrite Rz; cbn; lra); try lra; try reflexivity.
  rewrite !N.add_0_l in *. rewrite Rplus_0_l in E4.
  assert (V : vulnerability_score s = if (0 <? isum items)%N then ddiv S (dmul (dofZ (Z.of_N (isum items))) (dofZ 10)) else dofZ 0).
  { unfold vulnerability_score. unfold items in *. clearbody items.
    assert (Q : add_risk true (add_risk false (dofZ 0, 0%N) (managed s)) (sysmem s) = (S, isum (map (item_of false) (managed s) ++ map (item_of true) (sysmem s)))).
    { rewrite !add_risk_items, <- fold_left_app. exact E1. }
    rewrite Q. cbn [fst snd]. destruct (managed s); [destruct (sysmem s); [exfalso; apply Hne; reflexivity|]|]; reflexivity. }
  pose proof (len_isum _ Hf) as Hl. 
  assert (Hpos : (1 <= isum items)%N) by (destruct items; [congruence|cbn [length] in Hl; lia]).
  assert (Hfirst : 9 / 100 <= iexact items).
  { destruct items as [|[[n c] p] r]; [congruence|]. inversion Hf; subst. cbn [iexact]. pose proof (exactR_pos n c p H1). pose proof (iexact_nonneg _ H2). lra. }
  rewrite V. destruct (N.ltb_spec 0 (isum items)); [|lia].
  change (2 ^ 49)%N with 562949953421312%N in *. clear V E1.
  set (tot := isum items) in *. set (T := iexact items) in *.
  assert (Ht1 : 1 <= IZR (Z.of_N tot)) by (apply IZR_le; lia).
  assert (Ht2 : IZR (Z.of_N tot) <= 562949953421312) by (apply IZR_le; lia).
  destruct (ofZ_ex (Z.of_N tot)) as [O1 R1]; [lia|]. destruct (ofZ_ex 10 ltac:(reflexivity)) as [O2 R2].
  destruct (mul_d _ _ O1 O2) as [O3 R3]; [rewrite R1, R2; unfold mid; lra|].
  rewrite R1, R2, <- mult_IZR, rnd_int in R3 by lia. rewrite mult_IZR in R3.
  set (D := dmul (dofZ (Z.of_N tot)) (dofZ 10)) in *. 
  assert (Hk : (N.of_nat (length items) <= tot)%N) by (unfold tot; exact Hl).
  assert (Kr : IZR (Z.of_N (N.of_nat (length items))) = INR (length items)) by (rewrite nat_N_Z, <- INR_IZR_INZ; reflexivity).
  rewrite Kr in E4. assert (Kb : 0 <= INR (length items) <= 562949953421312) by (rewrite <- Kr; split; apply IZR_le; lia).
  set (k := INR (length items)) in *. clearbody k. cbv zeta in E4.
  set (m := T / (10 * IZR (Z.of_N tot))).
  set (q := R S / R D).
  assert (Dpos : 0 < / (10 * IZR (Z.of_N tot))) by (apply Rinv_0_lt_compat; lra).
  assert (Qe : q = R S * / (10 * IZR (Z.of_N tot))) by (unfold q; rewrite R3; unfold Rdiv; f_equal; f_equal; lra).
  assert (Me : m = T * / (10 * IZR (Z.of_N tot))) by reflexivity.
  assert (mpos : 0 < m) by (rewrite Me; apply Rmult_lt_0_compat; lra).
  assert (Q1 : m * (1 - 5 * k * eps) <= q <= m * (1 + 5 * k * eps)) by (rewrite Qe, Me; nra).
  assert (Q2 : 0 <= q <= 1).
  { rewrite Qe. split; [apply Rmult_le_pos; lra|]. apply Rmult_le_reg_r with (r := 10 * IZR (Z.of_N tot)); [lra|].
    rewrite Rmult_assoc, Rinv_l by lra. lra. }
  destruct (div_d S D E2 O3) as [O5 R5]; [lra|fold q; unfold mid; lra|]. fold q in R5.
  split; [exact O5|]. rewrite R5. split.
  - split.
    + rewrite <- Rz. apply rnd64_ge; [exact Oz|]. rewrite Rz. lra.
    + destruct (ofZ_ex 1 ltac:(reflexivity)) as [Oo Ro]. rewrite <- Ro. apply rnd64_le; [exact Oo|]. rewrite Ro. lra.
  - fold m. assert (ke : 0 <= 5 * k * eps <= 5 / 16) by lra.
    assert (Minv : / (10 * 562949953421312) <= / (10 * IZR (Z.of_N tot))) by (apply Rinv_le; lra).
    assert (qn : / 100000000000000000 <= q).
    { assert (9 / 100 * (1 - 5 / 16) <= R S) by nra. rewrite Qe.
      assert (9 / 100 * (1 - 5 / 16) * / (10 * 562949953421312) <= R S * / (10 * IZR (Z.of_N tot))) by nra. lra. }
    assert (Rel : q * (1 - eps) <= rnd64 q <= q * (1 + eps)).
    { apply rnd64_rel. apply Rle_trans with (2 := qn). apply Rle_trans with (bpow radix2 (-60)); [apply bpow_le; lia|].
      change (bpow radix2 (-60)) with (/ 1152921504606846976). lra. }
    apply Rabs_le. set (e := eps) in *. assert (Ee : 0 < e < / 1000) by (unfold e; lra). clearbody e.
    assert (m * (5 * k * e) * e <= m * e) by nra.
    assert (0 <= m * (5 * k * e) * e) by nra.
    split.
    + assert (m * (1 - 5 * k * e) * (1 - e) <= q * (1 - e)) by nra. nra.
    + assert (q * (1 + e) <= m * (1 + 5 * k * e) * (1 + e)) by nra. nra.
Qed.

Definition pkey (a : arec) := (aaddr a, place_of (alevel a)).
Definition mkey (m : mrec) := (mptr m, mplace m).
Lemma erase_pkeys p (l1 : list arec) (l2 : list mrec) : map pkey l1 = map mkey l2 ->
  match erase_if (fun r => (aaddr r =? p)%N) l1, erase_if (fun r => (mptr r =? p)%N) l2 with
  | Some a, Some b => map pkey a = map mkey b
  | None, None => True
  | _, _ => False
  end.
Proof.
  revert l2. induction l1 as [|x r IH]; intros [|y q] H; simpl in *; try discriminate; [trivial|].
  unfold pkey at 1, mkey at 1 in H. injection H as H1 H2 H3. rewrite <- H1. destruct (aaddr x =? p)%N; [assumption|]. specialize (IH _ H3).
  destruct (erase_if _ r), (erase_if _ q); try contradiction; [|trivial]. cbn [map]. unfold pkey at 1, mkey at 1. congruence.
Qed.
Lemma alloc_pk n c m s p sy s' : rma_allocate n c m s = Ret (p, sy, s') ->
  map pkey (allocations s) = map mkey (managed s) -> map pkey (allocations s') = map mkey (managed s').
Proof.
  unfold rma_allocate, record_alloc. destruct (nth_error _ _) as [z|]; [|discriminate]. destruct (find_space z _ _ =? 0)%N.
  - destruct (nth_error _ _) as [f|]; [|discriminate]. destruct (find_space f _ _ =? 0)%N; intros H IH; inversion H; cbn [allocations managed]; [assumption|].
    rewrite !map_app, IH. reflexivity.
  - intros H IH; inversion H; cbn [allocations managed]. rewrite !map_app, IH. reflexivity.
Qed.
Lemma dealloc_pk p s h s' h' : rma_deallocate p s h = Ret (s', h') ->
  map pkey (allocations s) = map mkey (managed s) -> map pkey (allocations s') = map mkey (managed s').
Proof.
  intros E IH. pose proof (erase_pkeys p _ _ IH) as K. revert E. unfold rma_deallocate. 
  destruct (erase_if _ (allocations s)).
  - destruct (erase_if _ (managed s)); [|contradiction]. intros E. inversion E. assumption.
  - destruct (erase_if _ (sysmem s)); destruct (c_free p h); try discriminate; intros E; inversion E; subst; assumption.
Qed.
Lemma place_run zs l : forall t s h, rma_run l (mkRma zs [] [] []) [] = Ret (t, s, h) -> map pkey (allocations s) = map mkey (managed s).
Proof.
  induction l as [|o l IH] using rev_ind; intros t s h H; [simpl in H; inversion H; reflexivity|].
  apply rma_run_app in H as (t0 & s0 & h0 & x & H1 & H2 & ->). specialize (IH _ _ _ H1).
  destruct o as [n c m|p|p]; cbn [rma_do] in H2.
  - destruct (rma_allocate n c m s0) as [[[p sy] s']| | |] eqn:E; try discriminate. inversion H2; subst.
    exact (alloc_pk _ _ _ _ _ _ _ E IH).
  - destruct (rma_deallocate p s0 h0) as [[s' h']| | |] eqn:E; try discriminate. inversion H2; subst.
    exact (dealloc_pk _ _ _ _ _ E IH).
  - inversion H2; subst. assumption.
Qed.
Lemma weighted_split zs bs : weighted zs bs = weighted zs (filter zonal bs) + weighted zs (filter bsys bs).
Proof.
  induction bs as [|b r IH]; [simpl; lra|]. cbn [filter]. unfold zonal at 1. unfold weighted in *. destruct (bsys b); cbn [negb fold_right]; lra.
Qed.
Lemma total_split bs : total bs = (total (filter zonal bs) + total (filter bsys bs))%N.
Proof.
  unfold total. induction bs as [|b r IH]; [reflexivity|]. cbn [filter]. unfold zonal at 1. destruct (bsys b); cbn [negb map sumN]; lia.
Qed.
Lemma total_items sy l : total (map (toB sy) l) = isum (map (item_of sy) l).
Proof. unfold total. induction l as [|r q IH]; [reflexivity|]. cbn [map sumN isum item_of toB bsize]. rewrite IH. reflexivity. Qed.
Lemma weighted_sys zs l : weighted zs (map (toB true) l) = iexact (map (item_of true) l).
Proof. unfold weighted. induction l as [|r q IH]; [reflexivity|]. cbn [map fold_right iexact item_of toB bsize bcrit]. rewrite IH. unfold exactR, exposure. cbn [bsys factorR]. reflexivity. Qed.
Lemma exposure_zone zs a m : one_per_level zs -> proper zs -> any_clash zs = false -> arec_ok zs a -> aaddr a = mptr m ->
  mplace m = place_of (alevel a) -> exposure zs (toB false m) = factorR (mplace m).
Proof.
  intros Ho Hp Hc (A0 & A1 & y & Y & Y1 & Y2 & Y3) E1 E2. unfold exposure. cbn [toB bsys].
  assert (F : find (fun z => in_zone z (toB false m)) zs = Some y).
  { assert (K : in_zone y (toB false m) = true).
    { unfold in_zone, toB. cbn [bptr bsys negb]. rewrite <- E1, (proj2 (N.leb_le _ _)), (proj2 (N.ltb_lt _ _)) by lia. reflexivity. }
    destruct (find _ zs) as [z|] eqn:F.
    - apply find_some in F as [Hz Hi]. f_equal.
      destruct (level_eqb (zlevel z) (zlevel y)) eqn:L.
      + apply level_eqb_eq in L. apply (nodup_level zs); auto.
      + exfalso. assert (Nzy : z <> y) by (intros ->; rewrite (proj2 (level_eqb_eq _ _) eq_refl) in L; discriminate).
        pose proof (zones_apart _ _ _ Hp Hc Hz Y Nzy). unfold in_zone in Hi. cbn [toB bptr bsys negb] in Hi.
        rewrite andb_true_r in Hi. apply andb_true_iff in Hi as [I1 I2]. apply N.leb_le in I1. apply N.ltb_lt in I2. lia.
    - pose proof (find_none _ _ F _ Y) as G. cbv beta in G. congruence. }
  fold (toB false m). rewrite F, E2, Y1. destruct (alevel a); reflexivity.
Qed.
Lemma weighted_zone zs al ml : one_per_level zs -> proper zs -> any_clash zs = false -> Forall (arec_ok zs) al -> map pkey al = map mkey ml ->
  weighted zs (map (toB false) ml) = iexact (map (item_of false) ml).
Proof.
  intros Ho Hp Hc. revert ml. induction al as [|a al IH]; intros [|m ml] Hf H; simpl in H; try discriminate; [reflexivity|].
  unfold pkey at 1, mkey at 1 in H. injection H as H1 H2 H3. inversion Hf; subst. unfold weighted in *. cbn [map fold_right iexact item_of bsize bcrit].
  rewrite (IH _ H5 H3). rewrite (exposure_zone zs a m) by auto. reflexivity.
Qed.
Theorem score zs s0 l t s h : one_per_level zs -> proper zs -> rma_make zs = Ret s0 ->
  rma_run l s0 [] = Ret (t, s, h) -> ok_history zs t -> ~ malloc_failed t ->
  (live t = [] -> vulnerability_score s = dofZ 0) /\
  (live t <> [] -> (total (live t) <= 2 ^ 49)%N ->
   okd (vulnerability_score s) /\ 0 <= R (vulnerability_score s) <= 1 /\
   Rabs (R (vulnerability_score s) - mean_exposure zs (live t)) <= (5 * INR (length (live t)) + 2) * eps * mean_exposure zs (live t)).
Proof.
  intros Ho Hp Hm Hr Hok Hf. destruct (make_ok _ _ Hm) as (-> & Hne & Hc).
  pose proof (inv_run _ _ Ho Hp Hc Hne _ _ _ Hr Hok) as I. pose proof (no_null _ _ Ho Hp Hc Hne _ _ _ Hr Hf) as NN.
  pose proof (place_run _ _ _ _ _ Hr) as PR.
  pose proof (I_zone _ _ _ _ _ I) as IZ. pose proof (I_sys _ _ _ _ _ I) as IS. rewrite NN in IS.
  assert (Len : forall bs, length bs = (length (filter zonal bs) + length (filter bsys bs))%nat).
  { clear. induction bs as [|b r IH]; [reflexivity|]. cbn [filter]. unfold zonal at 1. destruct (bsys b); cbn [negb length]; lia. }
  split.
  - intros E. rewrite E in IZ, IS. cbn [filter] in *. unfold vulnerability_score.
    destruct (managed s); [|discriminate]. destruct (sysmem s); [reflexivity|discriminate].
  - intros HneL Hb.
    pose proof (score_items s) as SI. cbv zeta in SI.
    set (items := map (item_of false) (managed s) ++ map (item_of true) (sysmem s)) in *.
    assert (E1 : isum items = total (live t)) by (unfold items; rewrite isum_app, total_split, IZ, IS, !total_items; reflexivity).
    assert (E2 : iexact items = weighted zs (live t)).
    { unfold items. rewrite iexact_app, weighted_split, IZ, IS, weighted_sys, (weighted_zone zs (allocations s)); auto. apply (I_in _ _ _ _ _ I). }
    assert (E3 : length items = length (live t)) by (unfold items; rewrite app_length, (Len (live t)), IZ, IS, !map_length; reflexivity).
    rewrite E1, E2, E3 in SI. apply SI; [assumption| |].
    + pose proof (I_pos _ _ _ _ _ I) as P. rewrite Forall_forall in P. unfold items. apply Forall_app. split; rewrite Forall_map, Forall_forall; intros r Hr'; cbn [item_of fst].
      * assert (K : In (toB false r) (filter zonal (live t))) by (rewrite IZ; apply in_map; assumption). apply filter_In in K as [K _]. apply P in K. cbn [toB bsize] in K. tauto.
      * assert (K : In (toB true r) (filter bsys (live t))) by (rewrite IS; apply in_map; assumption). apply filter_In in K as [K _]. apply P in K. cbn [toB bsize] in K. tauto.
    + intros E. rewrite E in E3. destruct (live t); [congruence|discriminate].
Qed.
