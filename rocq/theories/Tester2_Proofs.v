From Coq Require Import List NArith ZArith Bool Lia Reals Lra Psatz SpecFloat.
From Flocq Require Import Core.
From Flocq.IEEE754 Require Import BinarySingleNaN.
Import ListNotations.
From Verif Require Import Outcome Words Arith Floats FloatsR HealthFloat FloatsS Bits_Model PNN_Model Train_Model RMA3_Proofs Power4_Proofs Strat6_Proofs MBP6_Proofs Train5_Proofs Tester_Model Tester_Spec Tester_Proofs.
Local Open Scope R_scope.

(** ** the number of connections is exact *)
Lemma connections_from_R r : forall a acc k, okd acc -> R acc = IZR (Z.of_N k) -> (k + weights (a :: r) < 2 ^ 53)%N ->
  okd (connections_from acc a r) /\ R (connections_from acc a r) = IZR (Z.of_N (k + weights (a :: r))).
Proof.
  induction r as [|b r IH]; intros a acc k O E B; cbn [connections_from].
  - change (weights [a]) with 0%N. rewrite N.add_0_r. split; assumption.
  - change (weights (a :: b :: r)) with (a * b + weights (b :: r))%N in *. remember (weights (b :: r)) as w eqn:W. remember (a * b)%N as ab eqn:AB. rewrite N.mod_small by (unfold two64; lia).
    destruct (ofZ_ex (Z.of_N ab) ltac:(lia)) as [Ob Eb].
    destruct (add_d acc (dofZ (Z.of_N ab)) O Ob) as [Oa Ea].
    { rewrite E, Eb, <- plus_IZR. unfold mid. split; apply IZR_le; lia. }
    rewrite E, Eb, <- plus_IZR, rnd64_Z in Ea by lia.
    destruct (IH b _ (k + ab)%N Oa) as [A1 A2]; [rewrite Ea; f_equal; lia|rewrite <- W; lia|].
    split; [exact A1|]. rewrite A2, <- W. f_equal. lia.
Qed.
Lemma connections_R arch : moderate arch -> okd (connections arch) /\ R (connections arch) = IZR (Z.of_N (weights arch)).
Proof.
  intros M. destruct arch as [|a r]; [apply d0|]. cbn [connections].
  destruct (connections_from_R r a (dofZ 0) 0%N) as [A B]; [apply d0|apply d0|exact M|]. split; assumption.
Qed.
Lemma connections_zero arch : weights arch = 0%N -> connections arch = S754_zero false.
Proof.
  destruct arch as [|a r]; [reflexivity|]. cbn [connections]. change (dofZ 0) with (S754_zero false).
  revert a. induction r as [|b r IH]; intros a W; [reflexivity|]. change (weights (a :: b :: r)) with (a * b + weights (b :: r))%N in W. cbn [connections_from].
  replace (a * b)%N with 0%N by lia. change (dadd (S754_zero false) (dofZ (Z.of_N (0 mod two64)))) with (S754_zero false). apply IH. lia.
Qed.

(** ** conversions to size_t *)
Lemma to_size_inr x c : (0 <= c < 2 ^ 53)%Z -> inr 0 (IZR c) x -> exists n, to_size x = Ret n /\ Z.of_N n = Zfloor (R x) /\ (n <= Z.to_N c)%N.
Proof.
  intros C [[V F] B]. destruct (trunc_between x c F B) as (z & T & L). unfold to_size. rewrite T.
  rewrite (proj2 (Z.leb_le 0 z)) by lia. rewrite (proj2 (Z.ltb_lt z (2 ^ 64))) by lia. cbn [andb].
  exists (Z.to_N z). split; [reflexivity|]. split; [|lia]. rewrite Z2N.id by lia. apply trunc_floor; [lra|exact T].
Qed.
Lemma to_size_mono x y n m c : (0 <= c < 2 ^ 53)%Z -> inr 0 (IZR c) x -> inr 0 (IZR c) y -> R x <= R y -> to_size x = Ret n -> to_size y = Ret m -> (n <= m)%N.
Proof.
  intros C Hx Hy L Tx Ty. destruct (to_size_inr x c C Hx) as (n' & E1 & F1 & _), (to_size_inr y c C Hy) as (m' & E2 & F2 & _).
  rewrite Tx in E1. rewrite Ty in E2. injection E1 as <-. injection E2 as <-. pose proof (Zfloor_le _ _ L). lia.
Qed.

Definition share (p : plevel) : sf := dadd (dlit 2 10) (dmul (dlit 8 10) (protection_factor p)).
Lemma l02 : okd (dlit 2 10) /\ 0 <= R (dlit 2 10) <= / 5 + / 1000.
Proof.
  destruct (lit_inr 2 10 0 1) as [O _]; [vm_compute; reflexivity|vm_compute; reflexivity|lia|lia|]. split; [exact O|].
  change (dlit 2 10) with (ltac:(let x := eval vm_compute in (dlit 2 10) in exact x)). lit_R.
Qed.
Lemma l08 : okd (dlit 8 10) /\ 0 <= R (dlit 8 10) <= 8 / 10 + / 1000.
Proof.
  destruct (lit_inr 8 10 0 1) as [O _]; [vm_compute; reflexivity|vm_compute; reflexivity|lia|lia|]. split; [exact O|].
  change (dlit 8 10) with (ltac:(let x := eval vm_compute in (dlit 8 10) in exact x)). lit_R.
Qed.
Lemma share_R p : inr 0 1 (share p) /\ R (share p) = rnd64 (R (dlit 2 10) + rnd64 (R (dlit 8 10) * R (protection_factor p))).
Proof.
  assert (I : inr 0 1 (share p)).
  { assert (O : okd (share p)) by (destruct p; vm_compute; split; reflexivity). split; [exact O|]. destruct d0 as [O0 E0], d1 as [O1 E1].
    rewrite <- E0, <- E1. split; [apply (fle_d _ _ O0 O)|apply (fle_d _ _ O O1)]; destruct p; vm_compute; reflexivity. }
  split; [exact I|]. unfold share. destruct l02 as [O2 B2], l08 as [O8 B8]. destruct (factor_inr p) as [Of Bf].
  destruct (mul_d _ _ O8 Of) as [Om Em]; [unfold mid; nra|].
  assert (Bm : 0 <= R (dmul (dlit 8 10) (protection_factor p)) <= 1). { rewrite Em. split; [apply (rnd64_geZ 0)|apply (rnd64_leZ 1)]; try lia; nra. }
  destruct (add_d _ _ O2 Om) as [Oa Ea]; [midl|]. rewrite Ea, Em. reflexivity.
Qed.
Lemma share_mono p q : at_least_as_strong p q -> R (share q) <= R (share p).
Proof.
  intros H. rewrite (proj2 (share_R p)), (proj2 (share_R q)). apply rnd64_mono. apply Rplus_le_compat_l. apply rnd64_mono.
  apply Rmult_le_compat_l; [apply l08|apply factor_mono; exact H].
Qed.
Lemma count_mul n f c : inr 0 1 f -> (n <= c)%N -> (c < 2 ^ 52)%N -> inr 0 (IZR (Z.of_N n)) (dmul (dofZ (Z.of_N n)) f) /\ R (dmul (dofZ (Z.of_N n)) f) = rnd64 (IZR (Z.of_N n) * R f).
Proof.
  intros [Of Bf] L C. destruct (ofZ_ex (Z.of_N n) ltac:(lia)) as [On En].
  assert (B0 : 0 <= IZR (Z.of_N n)) by (apply IZR_le; lia). assert (B1 : IZR (Z.of_N n) <= 4503599627370496) by (apply IZR_le; lia).
  destruct (mul_d _ f On Of) as [Om Em]; [rewrite En; unfold mid; nra|]. rewrite En in Em. split; [|exact Em]. split; [exact Om|]. rewrite Em.
  split; [apply (rnd64_geZ 0)|apply (rnd64_leZ (Z.of_N n))]; try lia; nra.
Qed.

Section Lib.
Variables (flog fexp fpow2 : sf -> sf) (noise : N -> sf * sf).
Hypothesis LOG : log_ok flog.

Definition load (arch : list N) (e : senv) : sf := dmul (dmul (ddiv (flog (connections arch)) (dofZ 10)) (dofZ 100)) (impact e).
Lemma load_inr arch e : moderate arch -> (1 <= weights arch)%N -> inr 0 400 (load arch e).
Proof.
  intros M W. destruct LOG as [_ L]. destruct (connections_R arch M) as [Oc Ec].
  destruct (L (connections arch)) as [Ol Bl].
  { split; [exact Oc|]. rewrite Ec. unfold moderate in M. split; apply IZR_le; lia. }
  destruct (ofZ_ex 10 ltac:(lia)) as [O10 E10]. destruct (ofZ_ex 100 ltac:(lia)) as [O100 E100]. unfold load.
  destruct (div_d _ (dofZ 10) Ol O10) as [Od Ed]; [rewrite E10; lra|rewrite E10; unfold mid; lra|]. rewrite E10 in Ed.
  assert (Bd : 0 <= R (ddiv (flog (connections arch)) (dofZ 10)) <= 4). { rewrite Ed. split; [apply (rnd64_geZ 0)|apply (rnd64_leZ 4)]; lia || lra. }
  destruct (mul_d _ (dofZ 100) Od O100) as [Om Em]; [rewrite E100; midl|]. rewrite E100 in Em.
  assert (Bm : 0 <= R (dmul (ddiv (flog (connections arch)) (dofZ 10)) (dofZ 100)) <= 400). { rewrite Em. split; [apply (rnd64_geZ 0)|apply (rnd64_leZ 400)]; lia || lra. }
  destruct (impact_inr e) as [Oi Bi]. destruct (mul_d _ (impact e) Om Oi) as [Or Er]; [unfold mid; nra|]. split; [exact Or|]. rewrite Er.
  split; [apply (rnd64_geZ 0)|apply (rnd64_leZ 400)]; try lia; nra.
Qed.
(** the counts as a function of the configuration *)
Lemma counts arch e : moderate arch -> (1 <= weights arch)%N -> exists total, to_size (load arch e) = Ret total /\ (total <= 400)%N /\
  forall p, exists det corr, to_size (dmul (dofZ (Z.of_N total)) (share p)) = Ret det /\ to_size (dmul (dofZ (Z.of_N det)) (protection_factor p)) = Ret corr /\ (det <= total)%N /\ (corr <= det)%N.
Proof.
  intros M W. destruct (to_size_inr _ 400 ltac:(lia) (load_inr arch e M W)) as (t & T & _ & Lt). exists t. split; [exact T|]. split; [lia|]. intros p.
  destruct (count_mul t (share p) 400%N (proj1 (share_R p)) ltac:(lia) ltac:(lia)) as [I1 _].
  destruct (to_size_inr _ (Z.of_N t) ltac:(lia) I1) as (d & D & _ & Ld).
  destruct (count_mul d (protection_factor p) 400%N (factor_inr p) ltac:(lia) ltac:(lia)) as [I2 _].
  destruct (to_size_inr _ (Z.of_N d) ltac:(lia) I2) as (c & C & _ & Lc). exists d, c. repeat split; try assumption; lia.
Qed.
Lemma test_defined arch drop residual p e trial : moderate arch -> (1 <= weights arch)%N -> inr 0 1 drop ->
  exists r, test_with flog fexp noise arch drop residual p e trial = Ret r.
Proof.
  intros M W [Od Bd]. unfold test_with. cbv zeta.
  assert (I : inr 0 1000 (dmul drop (dofZ 1000))).
  { destruct (ofZ_ex 1000 ltac:(lia)) as [O1 E1]. destruct (mul_d drop _ Od O1) as [Om Em]; [rewrite E1; unfold mid; lra|]. split; [exact Om|]. rewrite Em, E1.
    split; [apply (rnd64_geZ 0)|apply (rnd64_leZ 1000)]; lia || lra. }
  destruct (to_size_inr _ 1000 ltac:(lia) I) as (d & D & _). rewrite D. cbn [obind].
  destruct (counts arch e M W) as (t & T & _ & K). destruct (K p) as (de & c & A & B & _). unfold load in T. rewrite T. cbn [obind]. unfold share in A. rewrite A. cbn [obind]. rewrite B. cbn [obind].
  eexists. reflexivity.
Qed.
Lemma test_counts arch drop residual p e trial r : moderate arch -> (1 <= weights arch)%N -> test_with flog fexp noise arch drop residual p e trial = Ret r ->
  exists total, to_size (load arch e) = Ret total /\ (total <= 400)%N /\ to_size (dmul (dofZ (Z.of_N total)) (share p)) = Ret (r_det r) /\ to_size (dmul (dofZ (Z.of_N (r_det r))) (protection_factor p)) = Ret (r_corr r) /\
    (r_det r <= total)%N /\ (r_corr r <= r_det r)%N /\ r_det r = (r_corr r + r_unc r)%N.
Proof.
  intros M W H. destruct (test_inv _ _ _ _ _ _ _ _ _ _ H) as (d & t & de & c & _ & T & A & B & ->). cbn [r_det r_corr r_unc].
  destruct (counts arch e M W) as (t' & T' & Lt & K). fold (load arch e) in T. rewrite T in T'. injection T' as <-. destruct (K p) as (de' & c' & A' & B' & L1 & L2).
  fold (share p) in A. rewrite A in A'. injection A' as <-. rewrite B in B'. injection B' as <-.
  exists t. repeat split; try assumption. replace (de + two64 - c)%N with ((de - c) + 1 * two64)%N by lia. rewrite N.mod_add by (unfold two64; lia). rewrite N.mod_small by (unfold two64; lia). lia.
Qed.
Lemma none_corrects_nothing arch drop residual e trial r : moderate arch -> (1 <= weights arch)%N -> test_with flog fexp noise arch drop residual NONE_ e trial = Ret r -> r_corr r = 0%N.
Proof.
  intros M W H. destruct (test_counts _ _ _ _ _ _ _ M W H) as (t & _ & Lt & _ & B & Ld & _).
  destruct (count_mul (r_det r) (protection_factor NONE_) 400%N (factor_inr NONE_) ltac:(lia) ltac:(lia)) as [I E].
  destruct (to_size_inr _ (Z.of_N (r_det r)) ltac:(lia) I) as (c & C & F & _). rewrite B in C. injection C as <-.
  assert (Z : R (dmul (dofZ (Z.of_N (r_det r))) (protection_factor NONE_)) = 0).
  { rewrite E. cbn [protection_factor]. rewrite (proj2 d0), Rmult_0_r. apply (rnd64_Z 0). lia. }
  rewrite Z in F. rewrite (Zfloor_IZR 0) in F. lia.
Qed.
Lemma stronger_counts arch drop1 drop2 res1 res2 p q e t1 t2 r1 r2 : moderate arch -> (1 <= weights arch)%N -> at_least_as_strong p q ->
  test_with flog fexp noise arch drop1 res1 q e t1 = Ret r1 -> test_with flog fexp noise arch drop2 res2 p e t2 = Ret r2 -> fewer_errors r1 r2.
Proof.
  intros M W S H1 H2. destruct (test_counts _ _ _ _ _ _ _ M W H1) as (a & Ta & La & A1 & B1 & L1 & L1' & _). destruct (test_counts _ _ _ _ _ _ _ M W H2) as (b & Tb & Lb & A2 & B2 & L2 & L2' & _).
  rewrite Ta in Tb. injection Tb as <-.
  assert (BA : 0 <= IZR (Z.of_N a) <= 400) by (split; apply IZR_le; lia).
  assert (D : (r_det r1 <= r_det r2)%N).
  { destruct (count_mul a (share q) 400%N (proj1 (share_R q)) ltac:(lia) ltac:(lia)) as [I1 E1]. destruct (count_mul a (share p) 400%N (proj1 (share_R p)) ltac:(lia) ltac:(lia)) as [I2 E2].
    refine (to_size_mono _ _ _ _ (Z.of_N a) _ I1 I2 _ A1 A2); [lia|]. rewrite E1, E2. apply rnd64_mono. apply Rmult_le_compat_l; [lra|]. apply share_mono. exact S. }
  split; [exact D|].
  destruct (count_mul (r_det r1) (protection_factor q) 400%N (factor_inr q) ltac:(lia) ltac:(lia)) as [[O1 I1] E1]. destruct (count_mul (r_det r2) (protection_factor p) 400%N (factor_inr p) ltac:(lia) ltac:(lia)) as [[O2 I2] E2].
  assert (C1 : IZR (Z.of_N (r_det r1)) <= IZR (Z.of_N (r_det r2))) by (apply IZR_le; lia).
  assert (C2 : IZR (Z.of_N (r_det r2)) <= 400) by (apply IZR_le; lia). assert (C0 : 0 <= IZR (Z.of_N (r_det r1))) by (apply IZR_le; lia).
  refine (to_size_mono _ _ _ _ 400 _ (conj O1 _) (conj O2 _) _ B1 B2); try lia; try lra.
  rewrite E1, E2. apply rnd64_mono. destruct (factor_inr q) as [_ Fq]. apply Rmult_le_compat; try lra. apply factor_mono. exact S.
Qed.
End Lib.
(** a network without a connection *)
Lemma test_no_connection flog fexp noise arch drop residual p e trial : log_zero flog -> weights arch = 0%N -> inr 0 1 drop ->
  test_with flog fexp noise arch drop residual p e trial = UB UB_float_to_int.
Proof.
  intros L W [Od Bd]. unfold test_with. cbv zeta.
  assert (I : inr 0 1000 (dmul drop (dofZ 1000))).
  { destruct (ofZ_ex 1000 ltac:(lia)) as [O1 E1]. destruct (mul_d drop _ Od O1) as [Om Em]; [rewrite E1; unfold mid; lra|]. split; [exact Om|]. rewrite Em, E1.
    split; [apply (rnd64_geZ 0)|apply (rnd64_leZ 1000)]; lia || lra. }
  destruct (to_size_inr _ 1000 ltac:(lia) I) as (d & D & _). rewrite D. cbn [obind]. rewrite (connections_zero arch W), L.
  replace (to_size (dmul (dmul (ddiv (S754_infinity true) (dofZ 10)) (dofZ 100)) (impact e))) with (@UB N UB_float_to_int) by (destruct e; vm_compute; reflexivity). reflexivity.
Qed.
