From Coq Require Import List NArith ZArith Lia Bool SpecFloat Reals Lra.
Import ListNotations.
From Flocq Require Import Core.
From Flocq.IEEE754 Require Import BinarySingleNaN.
From Verif Require Import Outcome Words Arith Floats FloatsR HealthFloat Crc_Model CrcTMR_Model CrcTMR_Spec CrcTMR_Proofs
  CrcTMRFloat_Proofs Health_Model Health_Spec Health_Proofs.
Local Open Scope R_scope.
Local Opaque d1 d005 d002 d01 d02 d03 d09 d06 dadd dsub dmul ddiv.

(** *** C26 *)
Definition hgood1 (c : hcell) : Prop := inr (R d005) 1 (hh c) /\ (length (hist c) <= 10)%nat.
Definition hgood (s : hw) : Prop := hgood1 (h0 s) /\ hgood1 (h1 s) /\ hgood1 (h2 s).
Lemma push_len l b : (length l <= 10)%nat -> (length (push_hist l b) <= 10)%nat.
Proof.
  intros H. unfold push_hist. rewrite app_length. cbn [length].
  destruct (Nat.leb_spec 10 (length l)); [destruct l; cbn in *; lia|lia].
Qed.
Lemma update_good b c : hgood1 c -> hgood1 (updateHealthScore b c).
Proof.
  intros [H L]. destruct d005_ok as [O5 B5], d01_ok as [O1 B1], d02_ok as [O2 B2].
  split; cbn [updateHealthScore hh hist]; [|apply push_len; exact L].
  assert (K : inr (R d005) 1 (if b then fmin d1 (dadd (hh c) d005) else fmax d01 (dsub (hh c) d02))).
  { destruct b.
    - apply reward_in; auto; lra.
    - apply inr_weaken with (R d01); [lra|]. apply penalty_in with (R d005); auto; lra. }
  destruct (3 <=? _)%nat; [|exact K]. destruct (2 <=? _)%nat; [|exact K].
  apply penalty_in with (R d005); auto; lra.
Qed.
Lemma keep_good c v k e : hgood1 c -> hgood1 (mkh v k (hh c) e (hist c)).
Proof. intros H. exact H. Qed.
Lemma hw_vote_good sg t s a b c v s' : hgood s -> hw_vote sg t s a b c = Ret (v, s') -> hgood s'.
Proof.
  intros [A [B C]] H. unfold hw_vote in H. cbv zeta in H.
  destruct (eqT t (hv (h0 s)) (hv (h1 s)) && eqT t (hv (h1 s)) (hv (h2 s))).
  { injection H as <- <-. repeat split; cbn [h0 h1 h2]; apply update_good; assumption. }
  destruct (_ || _)%bool; [discriminate|].
  apply (f_equal (fun o => match o with Ret p => snd p | _ => s end)) in H. cbn [snd] in H. rewrite <- H.
  unfold hgood. cbn [h0 h1 h2]. clear H.
  split; [|split]; [destruct a|destruct b|destruct c]; auto using update_good.
Qed.
Lemma hw_get_good sg t s v s' : hgood s -> hw_get sg t s = Ret (v, s') -> hgood s'.
Proof.
  intros [A [B C]] H. unfold hw_get in H. cbv zeta in H.
  assert (G : hgood (mkhw (if hw_ok t (h0 s) then h0 s else updateHealthScore false (h0 s))
                          (if hw_ok t (h1 s) then h1 s else updateHealthScore false (h1 s))
                          (if hw_ok t (h2 s) then h2 s else updateHealthScore false (h2 s)))).
  { unfold hgood; cbn [h0 h1 h2].
    split; [|split]; [destruct (hw_ok t (h0 s))|destruct (hw_ok t (h1 s))|destruct (hw_ok t (h2 s))]; auto using update_good. }
  set (s1 := mkhw _ _ _) in *.
  destruct (2 <=? _)%N; [apply (hw_vote_good sg t s1 _ _ _ v s' G H)|].
  destruct (hw_ok t (h0 s)); [injection H as <- <-; exact G|].
  destruct (hw_ok t (h1 s)); [injection H as <- <-; exact G|].
  destruct (hw_ok t (h2 s)); [injection H as <- <-; exact G|].
  injection H as _ <-. destruct G as [G0 [G1 G2]].
  match goal with |- hgood (hupd _ ?ix _) => destruct ix as [|[|?]] end; unfold hgood; cbn [hupd h0 h1 h2]; auto.
Qed.
Lemma hstep_good sg t s o s' : hgood s -> hstep sg t s o = Ret s' -> hgood s'.
Proof.
  intros G H. destruct o as [v| | | |i v k]; cbn [hstep] in H.
  - injection H as <-. destruct G as [[_ A] [[_ B] [_ C]]]. destruct d1_ok as [O1 E1], d005_ok as [O5 B5].
    assert (D : inr (R d005) 1 d1) by (split; [exact O1|lra]).
    unfold hgood, hgood1, hw_set. cbn [h0 h1 h2 hh hist]. auto.
  - destruct (hw_get sg t s) as [[v s1]| | |] eqn:E; try discriminate. injection H as <-. apply (hw_get_good sg t s v s1 G E).
  - unfold hw_repair in H. destruct (hw_get sg t s) as [[v s1]| | |] eqn:E; try discriminate. injection H as <-.
    apply (hw_get_good sg t s v s1 G) in E. exact E.
  - injection H as <-. exact G.
  - injection H as <-. destruct G as [A [B C]]. destruct i as [|[|i]]; unfold hgood; cbn; auto.
Qed.
Lemma hrun_good sg t : forall l s s', hgood s -> hrun sg t s l = Ret s' -> hgood s'.
Proof.
  induction l as [|o l IH]; intros s s' G H; [injection H as <-; exact G|].
  cbn [hrun] in H. destruct (hstep sg t s o) as [s1| | |] eqn:E; try discriminate.
  apply (IH s1 s'); [apply (hstep_good sg t s o s1 G E)|exact H].
Qed.
Lemma construct_good t v : hgood (hw_construct t v).
Proof.
  destruct d1_ok as [O1 E1], d005_ok as [O5 B5].
  assert (D : hgood1 (mkh v (hw_crc t v) d1 0 [])) by (split; [split; [exact O1|cbn; lra]|cbn; lia]).
  repeat split; apply D.
Qed.
Lemma hw_ranges sg t v l s : hrun sg t (hw_construct t v) l = Ret s ->
  Forall (between d005 d1) (hw_healths s) /\ Forall (fun h => (length h <= 10)%nat) (hw_hists s).
Proof.
  intros H. apply hrun_good in H; [|apply construct_good]. destruct H as [[A LA] [[B LB] [C LC]]].
  destruct d005_ok as [O5 B5].
  split; apply forall3; auto; apply inr_between; assumption.
Qed.
Lemma hist_is_lastn bs : fold_left push_hist bs [] = lastn 10 bs.
Proof.
  induction bs as [|b bs IH] using rev_ind; [reflexivity|].
  rewrite fold_left_app. cbn [fold_left]. rewrite IH. unfold push_hist, lastn.
  rewrite skipn_length, app_length. cbn [length].
  destruct (Nat.leb_spec 10 (length bs - (length bs - 10))).
  - replace (length bs + 1 - 10)%nat with (S (length bs - 10)) by lia.
    rewrite skipn_app. replace (S (length bs - 10) - length bs)%nat with 0%nat by lia. cbn [skipn]. f_equal.
    generalize (length bs - 10)%nat. intros n. clear. revert bs. induction n as [|n IH]; intros bs; [destruct bs; reflexivity|].
    destruct bs as [|x bs]; [reflexivity|]. cbn [skipn]. rewrite IH. reflexivity.
  - replace (length bs - 10)%nat with 0%nat by lia. replace (length bs + 1 - 10)%nat with 0%nat by lia. reflexivity.
Qed.

(** *** the key order *)
Lemma to_signed_inj w x y : (0 < w)%N -> (x < 2 ^ w)%N -> (y < 2 ^ w)%N -> to_signed w x = to_signed w y -> x = y.
Proof.
  intros Hw Hx Hy. unfold to_signed.
  assert (Z.of_N (2 ^ w) = (2 ^ Z.of_N w)%Z) by (rewrite N2Z.inj_pow; reflexivity).
  assert (E : (2 ^ w = 2 * 2 ^ (w - 1))%N) by (rewrite <- N.pow_succ_r'; f_equal; lia).
  destruct (N.ltb_spec x (2 ^ (w - 1))), (N.ltb_spec y (2 ^ (w - 1))); lia.
Qed.
Lemma ltK_eq sg t x y : eqT t x y = true -> ltK sg t x y = false.
Proof.
  intros H. unfold ltK. destruct (is_int t) eqn:Hi.
  - rewrite eqT_int in H by exact Hi. apply N.eqb_eq in H. subst y. destruct sg; [apply Z.ltb_irrefl|apply N.ltb_irrefl].
  - rewrite eqT_spec in H. apply andb_true_iff in H as [Hn H]. apply andb_true_iff in Hn as [Nx Ny].
    apply negb_true_iff in Nx, Ny. unfold ltT, flt, SFltb.
    assert (C : SFcompare (sf_of t x) (sf_of t y) = Some Eq).
    { rewrite Hi in H. cbn [negb andb] in H. apply orb_true_iff in H as [H|H].
      - apply N.eqb_eq in H. subst y.
        assert (Nn : sf_of t x <> S754_nan).
        { intros E. unfold sf_of, sf_of_bits in E.
          destruct t; try discriminate; cbn [mbits ebits is_nan] in *; unfold f_nan in Nx;
            destruct (f_exp _ _ x =? _)%N; destruct (f_mant _ x =? 0)%N; cbn in Nx; try discriminate;
            destruct (f_exp _ _ x =? 0)%N; try (destruct (f_mant _ x); discriminate); destruct (2 ^ _ + f_mant _ x)%N; discriminate. }
        destruct (sf_of t x) as [[]|[]| |[] p e]; try reflexivity; [contradiction| |];
          cbn; rewrite Z.compare_refl; rewrite Pos.compare_cont_refl; reflexivity.
      - apply andb_true_iff in H as [Zx Zy]. unfold sf_of, sf_of_bits.
        destruct t; try discriminate; cbn [is_zero mbits ebits] in *; unfold f_zero in Zx, Zy;
          apply andb_true_iff in Zx as [X1 X2]; apply andb_true_iff in Zy as [Y1 Y2];
          apply N.eqb_eq in X1, X2, Y1, Y2; rewrite X1, X2, Y1, Y2; reflexivity. }
    rewrite C. reflexivity.
Qed.
Lemma sf_nonfinite t x : is_int t = false -> is_finite t x = false -> is_nan t x = false ->
  sf_of t x = S754_infinity (N.testbit x (mbits t + ebits t)) /\ f_exp (mbits t) (ebits t) x = (2 ^ ebits t - 1)%N /\ f_mant (mbits t) x = 0%N.
Proof.
  intros Hi F Nx. unfold is_finite in F. apply negb_false_iff in F. unfold sf_of, sf_of_bits. rewrite F.
  apply N.eqb_eq in F.
  assert (M : f_mant (mbits t) x = 0%N).
  { destruct t; try discriminate; cbn [is_nan mbits ebits] in *; unfold f_nan in Nx; rewrite F, N.eqb_refl in Nx;
    cbn [andb] in Nx; apply negb_false_iff in Nx; apply N.eqb_eq in Nx; exact Nx. }
  rewrite M, N.eqb_refl. auto.
Qed.
Lemma ltK_total sg t x y : valid t x -> valid t y -> is_nan t x = false -> is_nan t y = false ->
  eqT t x y = false -> ltK sg t x y = false -> ltK sg t y x = true.
Proof.
  intros Vx Vy Nx Ny Hne H. unfold ltK in *. destruct (is_int t) eqn:Hi.
  - rewrite eqT_int in Hne by exact Hi. apply N.eqb_neq in Hne.
    destruct sg.
    + apply Z.ltb_ge in H. apply Z.ltb_lt.
      assert (to_signed (width t) x <> to_signed (width t) y).
      { intros E. apply Hne. apply (to_signed_inj (width t)); auto. destruct t; reflexivity. }
      lia.
    + apply N.ltb_ge in H. apply N.ltb_lt. lia.
  - destruct (is_finite t x) eqn:Fx, (is_finite t y) eqn:Fy; [apply lt_total; assumption| | |].
    + destruct (sf_nonfinite t y Hi Fy Ny) as [Ey [Xy My]]. unfold ltT, flt, SFltb in *. rewrite Ey in *.
      unfold is_finite in Fx. destruct (sf_finite_shape (mbits t) (ebits t) x ltac:(destruct t; reflexivity) Fx) as [[_ [s0 E]]|[_ [p [z [E _]]]]];
        unfold sf_of in *; rewrite E in *; destruct (N.testbit y _); cbn in *; try reflexivity; try discriminate.
    + destruct (sf_nonfinite t x Hi Fx Nx) as [Ex [Xx Mx]]. unfold ltT, flt, SFltb in *. rewrite Ex in *.
      unfold is_finite in Fy. destruct (sf_finite_shape (mbits t) (ebits t) y ltac:(destruct t; reflexivity) Fy) as [[_ [s0 E]]|[_ [p [z [E _]]]]];
        unfold sf_of in *; rewrite E in *; destruct (N.testbit x _); cbn in *; try reflexivity; try discriminate.
    + destruct (sf_nonfinite t x Hi Fx Nx) as [Ex [Xx Mx]]. destruct (sf_nonfinite t y Hi Fy Ny) as [Ey [Xy My]].
      unfold ltT, flt, SFltb in *. rewrite Ex, Ey in *.
      destruct (N.testbit x (mbits t + ebits t)) eqn:Tx, (N.testbit y (mbits t + ebits t)) eqn:Ty; cbn in *; try reflexivity; try discriminate;
      exfalso; unfold valid in *; rewrite (fl_width t Hi) in Vx, Vy;
      destruct (decode (mbits t) (ebits t) x Vx) as [Dx _]; destruct (decode (mbits t) (ebits t) y Vy) as [Dy _];
      rewrite Tx, Xx, Mx in Dx; rewrite Ty, Xy, My in Dy; assert (Exy : x = y) by (rewrite Dx, Dy; reflexivity);
      rewrite Exy, eqT_refl, Ny in Hne; discriminate.
Qed.

(** *** weights *)
Lemma weight_in h T : inr (R d005) 1 h -> okd T -> R h <= R T <= 4 -> inr (12 / 1000) 1 (ddiv h T).
Proof.
  intros [Oh [A B]] OT [C D]. destruct d005_ok as [_ B5], d1_ok as [O1 E1].
  assert (P : 0 < R T) by lra.
  assert (Q1 : 122 / 10000 <= R h / R T).
  { apply Rmult_le_reg_r with (R T); [exact P|]. unfold Rdiv at 2. rewrite Rmult_assoc, Rinv_l by lra. nra. }
  assert (Q2 : R h / R T <= 1).
  { apply Rmult_le_reg_r with (R T); [exact P|]. unfold Rdiv. rewrite Rmult_assoc, Rinv_l by lra. nra. }
  destruct (div_d h T Oh OT) as [Od Ed]; [lra|unfold mid; lra|].
  split; [exact Od|]. rewrite Ed. split.
  - destruct (rnd64_rel (R h / R T)) as [L _]; [apply small_normal; lra|]. lra.
  - rewrite <- E1. apply rnd64_le; [exact O1|]. lra.
Qed.
Lemma weight_mono h k T : okd h -> okd k -> okd T -> 0 < R T -> 0 <= R h <= 1 -> 0 <= R k <= 1 -> R h <= R T -> R k <= R T -> R k <= R h ->
  R (ddiv k T) <= R (ddiv h T).
Proof.
  intros Oh Ok OT P A B C C' D.
  assert (I : 0 < / R T) by (apply Rinv_0_lt_compat; exact P).
  assert (B2 : forall x, 0 <= x <= 1 -> x <= R T -> 0 <= x / R T <= 1).
  { intros x X X'. split; [unfold Rdiv; nra|]. apply Rmult_le_reg_r with (R T); [exact P|]. unfold Rdiv. rewrite Rmult_assoc, Rinv_l by lra. lra. }
  destruct (div_d h T Oh OT) as [_ E1]; [lra|unfold mid; specialize (B2 (R h)); lra|].
  destruct (div_d k T Ok OT) as [_ E2]; [lra|unfold mid; specialize (B2 (R k)); lra|].
  rewrite E1, E2. apply (rnd_le 53 1024). unfold Rdiv. nra.
Qed.
Lemma zero_add w : okd w -> -8 <= R w <= 8 -> okd (dadd d0 w) /\ R (dadd d0 w) = R w.
Proof.
  intros Ow B. destruct d0_ok as [Oz Ez]. destruct (add_d d0 w Oz Ow) as [O E]; [unfold mid; lra|].
  split; [exact O|]. rewrite E, Ez, Rplus_0_l. apply (rnd_R 53 1024). apply Ow.
Qed.
(* the pair's score beats the outlier's, and zero *)
Lemma pair_beats wi wj wk : inr (12 / 1000) 1 wi -> inr (12 / 1000) 1 wj -> inr (12 / 1000) 1 wk ->
  R wk <= R wi \/ R wk <= R wj ->
  let S := dadd (dadd d0 wi) wj in
  fgt S (dadd d0 wk) = true /\ fgt (dadd d0 wk) S = false /\ fgt S d0 = true /\ fgt (dadd d0 wk) d0 = true.
Proof.
  intros [Oi Bi] [Oj Bj] [Ok Bk] H S.
  destruct (zero_add wi Oi) as [Ozi Ezi]; [lra|]. destruct (zero_add wk Ok) as [Ozk Ezk]; [lra|].
  destruct (add_d (dadd d0 wi) wj Ozi Oj) as [OS ES]; [unfold mid; lra|]. fold S in OS, ES. rewrite Ezi in ES.
  destruct (rnd64_rel (R wi + R wj)) as [L _]; [apply small_normal; lra|].
  destruct d0_ok as [Oz Ez].
  assert (G : R wk < R S) by (rewrite ES; destruct H; lra).
  unfold fgt. change SFltb with flt. split; [apply flt_d; auto; lra|]. split; [apply flt_dF; auto; lra|].
  split; apply flt_d; auto; lra.
Qed.
Lemma pair_positive wi wj : inr (12 / 1000) 1 wi -> inr (12 / 1000) 1 wj -> fgt (dadd (dadd d0 wi) wj) d0 = true.
Proof. intros Hi Hj. apply (pair_beats wi wj wi Hi Hj Hi). left. lra. Qed.

(* totals *)
Lemma total2 h k : inr (R d005) 1 h -> inr (R d005) 1 k -> let T := dadd (dadd d0 h) k in
  okd T /\ R h <= R T <= 4 /\ R k <= R T.
Proof.
  intros [Oh Bh] [Ok Bk] T. destruct d005_ok as [_ B5].
  destruct (zero_add h Oh) as [Oz Ez]; [lra|].
  destruct (add_d (dadd d0 h) k Oz Ok) as [OT ET]; [unfold mid; lra|]. fold T in OT, ET. rewrite Ez in ET.
  split; [exact OT|]. destruct (rnd64_rel (R h + R k)) as [_ U]; [apply small_normal; lra|].
  assert (R h <= rnd64 (R h + R k)) by (apply rnd64_ge; [exact Oh|lra]).
  assert (R k <= rnd64 (R h + R k)) by (apply rnd64_ge; [exact Ok|lra]).
  rewrite ET. lra.
Qed.
Lemma total3 h k l : inr (R d005) 1 h -> inr (R d005) 1 k -> inr (R d005) 1 l -> let T := dadd (dadd (dadd d0 h) k) l in
  okd T /\ R h <= R T <= 4 /\ R k <= R T /\ R l <= R T.
Proof.
  intros Hh Hk [Ol Bl] T. destruct (total2 h k Hh Hk) as [O2 [[A1 A2] A3]]. set (U := dadd (dadd d0 h) k) in *.
  destruct Hh as [Oh Bh], Hk as [Ok Bk]. destruct d005_ok as [_ B5].
  assert (U2 : R U <= 21 / 10).
  { unfold U. destruct (zero_add h Oh) as [Oz Ez]; [lra|].
    destruct (add_d (dadd d0 h) k Oz Ok) as [OT ET]; [unfold mid; lra|]. rewrite ET, Ez.
    destruct (rnd64_rel (R h + R k)) as [_ X]; [apply small_normal; lra|]. lra. }
  destruct (add_d U l O2 Ol) as [OT ET]; [unfold mid; lra|]. fold T in OT, ET.
  split; [exact OT|]. destruct (rnd64_rel (R U + R l)) as [_ X]; [apply small_normal; lra|].
  assert (R U <= rnd64 (R U + R l)) by (apply rnd64_ge; [exact O2|lra]).
  assert (R l <= rnd64 (R U + R l)) by (apply rnd64_ge; [exact Ol|lra]).
  rewrite ET. lra.
Qed.

(** *** C25 positive: the vote over a pair and an outlier *)
Section Pair.
Variables (sg : bool) (t : aty).
Lemma best2 k1 x1 k2 x2 v0 : fgt x2 x1 = false -> fgt x1 d0 = true -> fgt x2 d0 = true \/ True ->
  best_entry [(k1, x1); (k2, x2)] v0 = k1.
Proof. intros A B _. unfold best_entry. cbn [fold_left]. rewrite B. cbn [fold_left]. rewrite A. reflexivity. Qed.
Lemma best2' k1 x1 k2 x2 v0 : fgt x2 x1 = true -> fgt x2 d0 = true -> best_entry [(k1, x1); (k2, x2)] v0 = k2.
Proof. intros A B. unfold best_entry. cbn [fold_left]. destruct (fgt x1 d0); [rewrite A|rewrite B]; reflexivity. Qed.
Lemma best1 k x v0 : fgt x d0 = true -> best_entry [(k, x)] v0 = k.
Proof. intros A. unfold best_entry. cbn [fold_left]. rewrite A. reflexivity. Qed.

Lemma nan_of_refl v : eqT t v v = true -> is_nan t v = false.
Proof. rewrite eqT_refl. apply negb_true_iff. Qed.

(* third copy excluded by its checksum *)
Lemma vote_excluded a b c (ok0 ok1 ok2 : bool) v :
  inr (R d005) 1 (hh a) -> inr (R d005) 1 (hh b) -> inr (R d005) 1 (hh c) -> eqT t v v = true ->
  (ok0 = false \/ hv a = v) -> (ok1 = false \/ hv b = v) -> (ok2 = false \/ hv c = v) ->
  (b2n ok0 + b2n ok1 + b2n ok2 = 2)%N ->
  exists r s', hw_vote sg t (mkhw a b c) ok0 ok1 ok2 = Ret (r, s') /\ eqT t r v = true.
Proof.
  intros Ha Hb Hc Hv E0 E1 E2 H2. pose proof (nan_of_refl v Hv) as Nv. pose proof (ltK_eq sg t v v Hv) as L.
  unfold hw_vote. cbn [h0 h1 h2].
  destruct (eqT t (hv a) (hv b) && eqT t (hv b) (hv c)) eqn:All.
  { eexists _, _. split; [reflexivity|]. apply andb_true_iff in All as [X Y].
    destruct ok0; [destruct E0 as [E0|E0]; [discriminate|subst v; exact Hv]|].
    destruct ok1; [|destruct ok2; discriminate]. destruct E1 as [E1|E1]; [discriminate|]. rewrite <- E1. exact X. }
  destruct ok0, ok1, ok2; try discriminate;
    repeat match goal with H : true = false \/ _ |- _ => destruct H as [H|H]; [discriminate|] end;
    subst; repeat match goal with H : hv _ = hv _ |- _ => rewrite H in * end;
    rewrite ?Nv; cbn [andb orb]; cbv zeta; cbn [map_add]; rewrite ?E0, ?E1, ?E2, ?L; 
    (eexists _, _; split; [reflexivity|]); rewrite best1; auto;
    match goal with |- fgt (dadd (dadd d0 (ddiv ?x ?T)) (ddiv ?y _)) d0 = true =>
      assert (Hx : inr (R d005) 1 x) by assumption; assert (Hy : inr (R d005) 1 y) by assumption;
      destruct (total2 x y Hx Hy) as [OT [T1 T2]];
      apply pair_positive; apply weight_in; auto; lra end.
Qed.

(* third copy checksum-valid, different, not healthier than one of the pair *)
Lemma vote_outlier a b c v u (p : nat) :
  inr (R d005) 1 (hh a) -> inr (R d005) 1 (hh b) -> inr (R d005) 1 (hh c) ->
  valid t v -> valid t u -> eqT t v v = true -> is_nan t u = false ->
  (p = 0%nat /\ hv a = u /\ hv b = v /\ hv c = v /\ (R (hh a) <= R (hh b) \/ R (hh a) <= R (hh c))) \/
  (p = 1%nat /\ hv a = v /\ hv b = u /\ hv c = v /\ (R (hh b) <= R (hh a) \/ R (hh b) <= R (hh c))) \/
  (p = 2%nat /\ hv a = v /\ hv b = v /\ hv c = u /\ (R (hh c) <= R (hh a) \/ R (hh c) <= R (hh b))) ->
  exists r s', hw_vote sg t (mkhw a b c) true true true = Ret (r, s') /\ eqT t r v = true.
Proof.
  intros Ha Hb Hc Vv Vu Hv Nu Hcase. pose proof (nan_of_refl v Hv) as Nv. pose proof (ltK_eq sg t v v Hv) as L.
  pose proof (ltK_eq sg t u u) as Lu. rewrite eqT_refl, Nu in Lu. specialize (Lu eq_refl).
  unfold hw_vote. cbn [h0 h1 h2].
  destruct (eqT t (hv a) (hv b) && eqT t (hv b) (hv c)) eqn:All.
  { eexists _, _. split; [reflexivity|]. apply andb_true_iff in All as [X Y].
    destruct Hcase as [(_ & A & B & C & _)|[(_ & A & B & C & _)|(_ & A & B & C & _)]]; rewrite A; auto.
    rewrite A, B in X. exact X. }
  assert (Hne : eqT t u v = false).
  { destruct (eqT t u v) eqn:E; [|reflexivity]. exfalso.
    destruct Hcase as [(_ & A & B & C & _)|[(_ & A & B & C & _)|(_ & A & B & C & _)]]; rewrite A, B, C in All.
    - rewrite E, Hv in All. discriminate.
    - rewrite eqT_sym, E in All. discriminate.
    - rewrite Hv, (eqT_sym t v u), E in All. discriminate. }
  assert (Hne' : eqT t v u = false) by (rewrite eqT_sym; exact Hne).
  assert (Hlt : (ltK sg t u v = true) \/ (ltK sg t v u = true /\ ltK sg t u v = false)).
  { destruct (ltK sg t u v) eqn:E; [left; reflexivity|right]. split; [apply ltK_total; assumption|reflexivity]. }
  destruct (total3 (hh a) (hh b) (hh c) Ha Hb Hc) as [OT [T1 [T2 T3]]].
  set (T := dadd (dadd (dadd d0 (hh a)) (hh b)) (hh c)) in *.
  assert (Wa : inr (12 / 1000) 1 (ddiv (hh a) T)) by (apply weight_in; auto; lra).
  assert (Wb : inr (12 / 1000) 1 (ddiv (hh b) T)) by (apply weight_in; auto; lra).
  assert (Wc : inr (12 / 1000) 1 (ddiv (hh c) T)) by (apply weight_in; auto; lra).
  assert (Mono : forall x y, inr (R d005) 1 x -> inr (R d005) 1 y -> R x <= R T -> R y <= R T -> R y <= R x -> R (ddiv y T) <= R (ddiv x T)).
  { intros x y [Ox Bx] [Oy By] X Y Z. destruct d005_ok as [_ B5]. apply weight_mono; auto; lra. }
  destruct Hcase as [(_ & A & B & C & Hh)|[(_ & A & B & C & Hh)|(_ & A & B & C & Hh)]]; rewrite A, B, C.
  - destruct (pair_beats (ddiv (hh b) T) (ddiv (hh c) T) (ddiv (hh a) T) Wb Wc Wa) as (S1 & S2 & S3 & S4).
    { destruct Hh; [left|right]; apply Mono; auto; lra. }
    rewrite Nv, Nu. cbn [andb orb]. cbv zeta. cbn [map_add]. fold T.
    destruct Hlt as [E|[E E']]; rewrite ?E, ?E'; cbn [map_add]; rewrite ?L, ?E, ?E'; (eexists _, _; split; [reflexivity|]).
    + rewrite best2'; auto.
    + rewrite best2; auto.
  - destruct (pair_beats (ddiv (hh a) T) (ddiv (hh c) T) (ddiv (hh b) T) Wa Wc Wb) as (S1 & S2 & S3 & S4).
    { destruct Hh; [left|right]; apply Mono; auto; lra. }
    rewrite Nv, Nu. cbn [andb orb]. cbv zeta. cbn [map_add]. fold T.
    destruct (ltK sg t v u) eqn:Evu.
    + cbn [map_add]. rewrite L. (eexists _, _; split; [reflexivity|]). rewrite best2; auto.
    + destruct Hlt as [E|[E E']]; [|congruence]. rewrite E. cbn [map_add]. rewrite E, ?L. (eexists _, _; split; [reflexivity|]). rewrite best2'; auto.
  - destruct (pair_beats (ddiv (hh a) T) (ddiv (hh b) T) (ddiv (hh c) T) Wa Wb Wc) as (S1 & S2 & S3 & S4).
    { destruct Hh; [left|right]; apply Mono; auto; lra. }
    rewrite Nv, Nu. cbn [andb orb]. cbv zeta. cbn [map_add]. fold T. rewrite L. cbn [map_add].
    destruct (ltK sg t v u) eqn:Evu.
    + (eexists _, _; split; [reflexivity|]). rewrite best2; auto.
    + destruct Hlt as [E|[E E']]; [|congruence]. rewrite E. (eexists _, _; split; [reflexivity|]). rewrite best2'; auto.
Qed.
End Pair.

Definition hrange (s : hw) : Prop := inr (R d005) 1 (hh (h0 s)) /\ inr (R d005) 1 (hh (h1 s)) /\ inr (R d005) 1 (hh (h2 s)).
Lemma pen_range c : inr (R d005) 1 (hh c) -> inr (R d005) 1 (hh (updateHealthScore false c)).
Proof.
  intros H. assert (G : hgood1 (mkh (hv c) (hk c) (hh c) (herr c) [])) by (split; [exact H|cbn; lia]).
  destruct d005_ok as [O5 B5], d01_ok as [O1 B1], d02_ok as [O2 B2].
  cbn [updateHealthScore hh].
  assert (K : inr (R d005) 1 (fmax d01 (dsub (hh c) d02))).
  { apply inr_weaken with (R d01); [lra|]. apply penalty_in with (R d005); auto; lra. }
  destruct (3 <=? _)%nat; [|exact K]. destruct (2 <=? _)%nat; [|exact K]. apply penalty_in with (R d005); auto; lra.
Qed.
Lemma hv_update b c : hv (updateHealthScore b c) = hv c. Proof. reflexivity. Qed.

Lemma hw_get_pair sg t s v k : hrange s -> eqT t v v = true -> (k < 3)%nat ->
  (forall i, (i < 3)%nat -> i <> k -> hv (hsel s i) = v /\ hw_ok t (hsel s i) = true) ->
  hw_ok t (hsel s k) = false \/
  (valid t v /\ valid t (hv (hsel s k)) /\ is_nan t (hv (hsel s k)) = false /\
   exists i, (i < 3)%nat /\ i <> k /\ fle (hh (hsel s k)) (hh (hsel s i)) = true) ->
  exists r s', hw_get sg t s = Ret (r, s') /\ eqT t r v = true.
Proof.
  intros [R0 [R1 R2]] Hv Hk Hp Hc.
  assert (Fle : forall x y, inr (R d005) 1 x -> inr (R d005) 1 y -> fle x y = true -> R x <= R y).
  { intros x y [Ox _] [Oy _] H. apply fle_d in H; auto. }
  destruct s as [a b c]. cbn [h0 h1 h2] in *.
  unfold hw_get. cbn [h0 h1 h2].
  destruct k as [|[|[|k]]]; [| | |lia].
  - destruct (Hp 1%nat) as [E1 O1]; [lia|lia|]. destruct (Hp 2%nat) as [E2 O2]; [lia|lia|]. cbn [hsel h0 h1 h2] in *.
    rewrite O1, O2. destruct (hw_ok t a) eqn:O0.
    + destruct Hc as [Hc|(Vv & Vu & Nu & i & Hi & Hik & Hle)]; [discriminate|].
      change (2 <=? _)%N with true. cbv iota.
      apply (vote_outlier sg t a b c v (hv a) 0); auto. left. repeat split; auto.
      destruct i as [|[|[|i]]]; [lia| | |lia]; cbn [hsel h0 h1 h2] in Hle; [left|right]; apply Fle; auto.
    + change (2 <=? _)%N with true. cbv iota. apply vote_excluded; auto using pen_range.
  - destruct (Hp 0%nat) as [E0 O0]; [lia|lia|]. destruct (Hp 2%nat) as [E2 O2]; [lia|lia|]. cbn [hsel h0 h1 h2] in *.
    rewrite O0, O2. destruct (hw_ok t b) eqn:O1.
    + destruct Hc as [Hc|(Vv & Vu & Nu & i & Hi & Hik & Hle)]; [discriminate|].
      change (2 <=? _)%N with true. cbv iota.
      apply (vote_outlier sg t a b c v (hv b) 1); auto. right; left. repeat split; auto.
      destruct i as [|[|[|i]]]; [|lia| |lia]; cbn [hsel h0 h1 h2] in Hle; [left|right]; apply Fle; auto.
    + change (2 <=? _)%N with true. cbv iota. apply vote_excluded; auto using pen_range.
  - destruct (Hp 0%nat) as [E0 O0]; [lia|lia|]. destruct (Hp 1%nat) as [E1 O1]; [lia|lia|]. cbn [hsel h0 h1 h2] in *.
    rewrite O0, O1. destruct (hw_ok t c) eqn:O2.
    + destruct Hc as [Hc|(Vv & Vu & Nu & i & Hi & Hik & Hle)]; [discriminate|].
      change (2 <=? _)%N with true. cbv iota.
      apply (vote_outlier sg t a b c v (hv c) 2); auto. right; right. repeat split; auto.
      destruct i as [|[|[|i]]]; [| |lia|lia]; cbn [hsel h0 h1 h2] in Hle; [left|right]; apply Fle; auto.
    + change (2 <=? _)%N with true. cbv iota. apply vote_excluded; auto using pen_range.
Qed.

(** every reachable state *)
Lemma hw_reachable_pair sg t v0 l s v k : hrun sg t (hw_construct t v0) l = Ret s -> eqT t v v = true -> (k < 3)%nat ->
  (forall i, (i < 3)%nat -> i <> k -> hv (hsel s i) = v /\ hk (hsel s i) = hw_crc t v) ->
  hk (hsel s k) <> hw_crc t (hv (hsel s k)) \/
  (valid t v /\ valid t (hv (hsel s k)) /\ is_nan t (hv (hsel s k)) = false /\
   exists i, (i < 3)%nat /\ i <> k /\ fle (hh (hsel s k)) (hh (hsel s i)) = true) ->
  exists r s', hw_get sg t s = Ret (r, s') /\ eqT t r v = true.
Proof.
  intros H Hv Hk Hp Hc. apply hrun_good in H; [|apply construct_good]. destruct H as [[A _] [[B _] [C _]]].
  apply (hw_get_pair sg t s v k); auto.
  - repeat split; apply A || apply B || apply C.
  - intros i Hi Hik. destruct (Hp i Hi Hik) as [E1 E2]. split; [exact E1|]. unfold hw_ok. rewrite E1, E2. apply N.eqb_refl.
  - destruct Hc as [Hc|Hc]; [left|right; exact Hc]. unfold hw_ok. apply N.eqb_neq. exact Hc.
Qed.

(** C24 *)
Lemma hw_one_corrupt sg t s v k u ck : (k < 3)%nat -> eqT t v v = true -> valid t v -> valid t u ->
  (is_nan t u = false \/ ck <> hw_crc t u) ->
  exists r s', hw_get sg t (hw_corrupt (hw_set t s v) k u ck) = Ret (r, s') /\ eqT t r v = true.
Proof.
  intros Hk Hv Vv Vu Hn. apply (hw_get_pair sg t _ v k); auto.
  - destruct d1_ok as [O1 E1], d005_ok as [O5 B5]. assert (inr (R d005) 1 d1) by (split; [exact O1|lra]).
    destruct k as [|[|[|k]]]; [| | |lia]; unfold hrange; cbn; auto.
  - intros i Hi Hik. destruct k as [|[|[|k]]]; [| | |lia]; destruct i as [|[|[|i]]]; try lia; cbn; unfold hw_ok; cbn;
      rewrite N.eqb_refl; auto.
  - destruct (N.eq_dec ck (hw_crc t u)) as [->|Hne].
    + right. destruct Hn as [Hn|Hn]; [|contradiction].
      destruct d1_ok as [O1 E1]. assert (fle d1 d1 = true) by (apply fle_d; auto; lra).
      destruct k as [|[|[|k]]]; [| | |lia]; cbn; repeat split; auto;
        [exists 1%nat|exists 0%nat|exists 0%nat]; cbn; auto with arith.
    + left. destruct k as [|[|[|k]]]; [| | |lia]; cbn; unfold hw_ok; cbn; apply N.eqb_neq; exact Hne.
Qed.
Lemma hw_repaired sg t s v s' : hw_get sg t s = Ret (v, s') -> exists s2, hw_repair sg t s = Ret s2 /\
  forall i, hv (hsel s2 i) = v /\ hk (hsel s2 i) = hw_crc t v.
Proof.
  intros H. unfold hw_repair. rewrite H. cbn [obind]. eexists. split; [reflexivity|].
  intros [|[|i]]; cbn; auto.
Qed.
Lemma hw_one_corrupt_int sg t s v k u ck : is_int t = true -> (k < 3)%nat -> valid t v -> valid t u ->
  exists s' s2, hw_get sg t (hw_corrupt (hw_set t s v) k u ck) = Ret (v, s') /\
    hw_repair sg t (hw_corrupt (hw_set t s v) k u ck) = Ret s2 /\
    forall i, hv (hsel s2 i) = v /\ hk (hsel s2 i) = hw_crc t v.
Proof.
  intros Hi Hk Vv Vu. destruct (hw_one_corrupt sg t s v k u ck Hk) as (r & s' & E & Q); auto.
  - rewrite eqT_int by exact Hi. apply N.eqb_refl.
  - left. destruct t; try discriminate; reflexivity.
  - rewrite eqT_int in Q by exact Hi. apply N.eqb_eq in Q. subst r.
    destruct (hw_repaired sg t _ v s' E) as (s2 & E2 & W). exists s', s2. auto.
Qed.
Lemma hw_nan_ub sg t s v u : eqT t v v = true -> is_nan t u = true ->
  hw_get sg t (hw_corrupt (hw_set t s v) 0 u (hw_crc t u)) = UB UB_comparator.
Proof.
  intros Hv Hu. unfold hw_get, hw_corrupt, hw_set. cbn [hupd h0 h1 h2]. unfold hw_ok. cbn [hk hv]. rewrite !N.eqb_refl.
  change (2 <=? _)%N with true. cbv iota. unfold hw_vote. cbn [h0 h1 h2 hv].
  assert (E : eqT t u v = false) by (rewrite eqT_spec, Hu; reflexivity). rewrite E, Hu. reflexivity.
Qed.
(** C25: two checksum-valid copies of 5 lose against one checksum-valid 9 *)
Definition c25_history : list hop :=
  [HCorrupt 0 5 0; HCorrupt 1 5 0; HGet; HGet; HGet; HGet; HRepair; HCorrupt 2 9 (hw_crc I32 9)].
Lemma hw_minority_wins : exists s s', hrun true I32 (hw_construct I32 5) c25_history = Ret s /\
  hv (h0 s) = 5%N /\ hk (h0 s) = hw_crc I32 5 /\ hv (h1 s) = 5%N /\ hk (h1 s) = hw_crc I32 5 /\
  hw_get true I32 s = Ret (9%N, s').
Proof.
  destruct (hrun true I32 (hw_construct I32 5) c25_history) as [s| | |] eqn:E; [|vm_compute in E; discriminate..].
  vm_compute in E. injection E as <-. eexists _, _. split; [reflexivity|]. vm_compute. repeat split.
Qed.
Lemma hist_after_votes bs c : (length (hist c) <= 10)%nat ->
  hist (fold_left (fun c b => updateHealthScore b c) bs c) = lastn 10 (hist c ++ bs).
Proof.
  intros L. revert c L. induction bs as [|b bs IH]; intros c L.
  - cbn [fold_left]. rewrite app_nil_r. unfold lastn. replace (length (hist c) - 10)%nat with 0%nat by lia. reflexivity.
  - cbn [fold_left]. rewrite IH by (cbn [updateHealthScore hist]; apply push_len; exact L).
    cbn [updateHealthScore hist]. unfold push_hist.
    destruct (Nat.leb_spec 10 (length (hist c))).
    + destruct (hist c) as [|x l] eqn:E; [cbn in *; lia|]. cbn [tl]. rewrite <- app_assoc. cbn [app].
      unfold lastn. change ((x :: l) ++ b :: bs) with (x :: (l ++ b :: bs)). cbn [length] in *.
      rewrite !app_length. cbn [length].
      replace (S (length l + S (length bs)) - 10)%nat with (S (length l + S (length bs) - 10)) by lia. reflexivity.
    + rewrite <- app_assoc. reflexivity.
Qed.
