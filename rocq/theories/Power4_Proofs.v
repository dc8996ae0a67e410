(** C116: criticality decides between components that are otherwise the same. *)
From Coq Require Import List NArith ZArith Bool SpecFloat Reals Permutation Lia Lra Sorted.
Import ListNotations.
From Flocq Require Import Core.
From Flocq.IEEE754 Require Import BinarySingleNaN.
From Verif Require Import Outcome Words Arith Floats FloatsR HealthFloat BitsFloat_Proofs RMA3_Proofs Power_Model Power_Spec Power_Proofs Power2_Proofs Power3_Proofs.
Local Open Scope R_scope.

(** *** Comparison with infinities *)
Definition good (x : sf) : Prop := V64 x = true /\ x <> S754_nan.
Notation top := (bpow radix2 1024).
Definition E (x : sf) : Rdefinitions.R := match x with S754_infinity false => top | S754_infinity true => - top | _ => R x end.
Lemma okd_good x : okd x -> good x /\ E x = R x.
Proof. intros [V F]. destruct x; try discriminate; split; (split; [exact V|congruence]) || reflexivity. Qed.
Lemma good_cases x : good x -> (okd x /\ E x = R x /\ - top < E x < top) \/ (x = S754_infinity false /\ E x = top) \/ (x = S754_infinity true /\ E x = - top).
Proof.
  intros [V N]. destruct x as [b|b| |b m e]; [left|right|congruence|left].
  - split; [split; [exact V|reflexivity]|]. split; [reflexivity|]. pose proof (fin_bound 53 1024 (S754_zero b) V) as B. apply Rabs_def2 in B. cbn [E]. lra.
  - destruct b; [right|left]; split; reflexivity.
  - split; [split; [exact V|reflexivity]|]. split; [reflexivity|]. pose proof (fin_bound 53 1024 (S754_finite b m e) V) as B. apply Rabs_def2 in B. cbn [E]. lra.
Qed.
Lemma top_pos : 0 < top.
Proof. apply bpow_gt_0. Qed.
Lemma flt_E x y : good x -> good y -> (flt x y = true <-> E x < E y).
Proof.
  intros Gx Gy. pose proof top_pos as T. destruct (good_cases x Gx) as [(Ox & Ex & Bx)|[(-> & Ex)|(-> & Ex)]], (good_cases y Gy) as [(Oy & Ey & By)|[(-> & Ey)|(-> & Ey)]].
  - rewrite Ex, Ey. apply flt_d; assumption.
  - split; [intros _; lra|]. intros _. destruct Ox as [_ F]. destruct x; try discriminate F; destruct s; reflexivity.
  - split; [|intros; lra]. intros X. destruct Ox as [_ F]. destruct x; try discriminate F; destruct s; discriminate X.
  - split; [|intros; lra]. intros X. destruct Oy as [_ F]. destruct y; try discriminate F; try destruct s; discriminate X.
  - split; [discriminate|intros; lra].
  - split; [discriminate|intros; lra].
  - split; [intros _; lra|]. intros _. destruct Oy as [_ F]. destruct y; try discriminate F; destruct s; reflexivity.
  - split; [intros _; lra|reflexivity].
  - split; [discriminate|intros; lra].
Qed.
Lemma flt_nan_r x : flt x S754_nan = false.
Proof. destruct x as [s|s| |s m e]; try destruct s; reflexivity. Qed.
Lemma flt_nan_l x : flt S754_nan x = false.
Proof. reflexivity. Qed.
Lemma sign_pos x : V64 x = true -> fin x = true -> 0 < R x -> exists m e, x = S754_finite false m e.
Proof.
  intros V F H. destruct x as [s|s| |s m e]; try discriminate F; [unfold R, SF2R in H; lra|]. destruct s; [|eauto].
  exfalso. unfold R, SF2R, F2R in H. cbn [Defs.Fnum Defs.Fexp cond_Zopp] in H. pose proof (bpow_gt_0 radix2 e) as B.
  assert (IZR (Z.neg m) < 0) by (apply IZR_lt; reflexivity). simpl in H. nra.
Qed.
Lemma div_E x y : okd x -> okd y -> 0 <= R x -> 0 < R y -> good (ddiv x y) /\ E (ddiv x y) = Rmin (rnd64 (R x / R y)) top.
Proof.
  intros [Vx Fx] [Vy Fy] Hx Hy.
  pose proof (Bdiv_correct 53 1024 Hp53 Hm53 mode_NE (lift 53 1024 x Vx) (lift 53 1024 y Vy)) as H.
  rewrite !lift_R in H. specialize (H ltac:(lra)).
  pose proof (div_equiv 53 1024 (lift 53 1024 x Vx) (lift 53 1024 y Vy)) as Q. rewrite !lift_sf in Q.
  assert (P : 0 <= rnd64 (R x / R y)) by (apply rnd_pos; apply Rmult_le_pos; [exact Hx|left; apply Rinv_0_lt_compat; exact Hy]).
  change (round radix2 (SpecFloat.fexp 53 1024) (round_mode mode_NE) (R x / R y)) with (rnd64 (R x / R y)) in H.
  destruct (Rlt_bool_spec (Rabs (rnd64 (R x / R y))) top) as [L|G].
  - rewrite (Rabs_pos_eq _ P) in L. destruct (div_R 53 1024 x y Vx Vy Fx ltac:(lra)) as (A1 & A2 & A3); [rewrite (Rabs_pos_eq _ P); exact L|].
    change (SFdiv 53 1024 x y) with (ddiv x y) in *. destruct (okd_good (ddiv x y) (conj A3 A2)) as [G1 G2]. split; [exact G1|]. rewrite G2, A1, Rmin_left by lra. reflexivity.
  - rewrite (Rabs_pos_eq _ P) in G. rewrite Rmin_right by lra.
    assert (Hx' : 0 < R x). { destruct Hx as [Hx|Hx]; [exact Hx|]. exfalso. rewrite <- Hx in G. unfold Rdiv in G. rewrite Rmult_0_l, (rnd_z 0) in G by reflexivity. pose proof top_pos. lra. }
    destruct (sign_pos x Vx Fx Hx') as (mx & ex & ->). destruct (sign_pos y Vy Fy Hy) as (my & ey & ->).
    change (SFdiv 53 1024 (S754_finite false mx ex) (S754_finite false my ey)) with (ddiv (S754_finite false mx ex) (S754_finite false my ey)) in Q.
    rewrite Q. rewrite H. cbn [lift SF2B Bsign xorb]. split; [split; [reflexivity|discriminate]|reflexivity].
Qed.
(* the quotient does not fall with the numerator, whatever the denominator *)
Lemma div_mono x x' y : okd x -> okd x' -> okd y -> 0 <= R x <= R x' -> 0 <= R y -> good (ddiv x y) ->
  good (ddiv x' y) /\ E (ddiv x y) <= E (ddiv x' y).
Proof.
  intros Ox Ox' Oy Hx Hy G. destruct Hy as [Hy|Hy].
  - destruct (div_E x y Ox Oy ltac:(lra) Hy) as [_ E1]. destruct (div_E x' y Ox' Oy ltac:(lra) Hy) as [G2 E2]. split; [exact G2|].
    rewrite E1, E2. apply Rle_min_compat_r. apply rnd_mono. apply Rmult_le_compat_r; [left; apply Rinv_0_lt_compat; exact Hy|lra].
  - destruct Oy as [Vy Fy]. assert (Z : exists s, y = S754_zero s).
    { destruct y as [s|s| |s m e]; try discriminate Fy; eauto. exfalso. unfold R, SF2R, F2R in Hy. cbn in Hy. pose proof (bpow_gt_0 radix2 e) as B.
      assert (IZR (cond_Zopp s (Z.pos m)) <> 0) by (apply IZR_neq; destruct s; discriminate). symmetry in Hy. apply Rmult_integral in Hy. lra. }
    destruct Z as [s ->]. destruct Ox as [Vx Fx], Ox' as [Vx' Fx'].
    destruct x as [sx|sx| |sx mx ex]; try discriminate Fx; [exfalso; apply (proj2 G); reflexivity|].
    assert (Px : 0 < R (S754_finite sx mx ex)).
    { destruct (proj1 Hx) as [P|P]; [exact P|]. exfalso. unfold R, SF2R, F2R in P. cbn in P. pose proof (bpow_gt_0 radix2 ex) as B.
      assert (IZR (cond_Zopp sx (Z.pos mx)) <> 0) by (apply IZR_neq; destruct sx; discriminate). symmetry in P. apply Rmult_integral in P. lra. }
    destruct (sign_pos _ Vx Fx Px) as (m1 & e1 & E1). destruct (sign_pos x' Vx' Fx' ltac:(lra)) as (m2 & e2 & ->). rewrite E1.
    destruct s; (split; [split; [reflexivity|discriminate]|right; reflexivity]).
Qed.
Lemma div_valid x y : V64 x = true -> V64 y = true -> V64 (ddiv x y) = true.
Proof.
  intros Vx Vy. pose proof (div_equiv 53 1024 (lift 53 1024 x Vx) (lift 53 1024 y Vy)) as Q. rewrite !lift_sf in Q.
  change (SFdiv 53 1024 x y) with (ddiv x y) in Q. rewrite Q. apply valid_binary_B2SF.
Qed.

(** *** The scan *)
Definition benefit (c : comp) : sf := ddiv (dmul (step_size c) (ccrit c)) (additional c).
Lemma gain_R c : level_ok c -> okd (dmul (step_size c) (ccrit c)) /\ R (dmul (step_size c) (ccrit c)) = rnd64 (R (step_size c) * R (ccrit c)) /\ 0 <= R (dmul (step_size c) (ccrit c)).
Proof.
  intros L. destruct (step_R c (proj1 L)) as (O1 & _ & H1). assert (Sc : okd (ccrit c) /\ 0 <= R (ccrit c) <= 1) by (split; apply L). destruct Sc as [O2 H2].
  destruct (mul_d _ _ O1 O2) as [O3 R3]; [apply midz; nra|]. split; [exact O3|]. split; [exact R3|]. rewrite R3. apply rnd_pos. nra.
Qed.
Lemma benefit_valid c : level_ok c -> V64 (benefit c) = true.
Proof. intros L. apply div_valid; [apply (gain_R c L)|apply (additional_R c L)]. Qed.
Definition eligible (r : sf) (c : comp) : Prop := fge (ccur c) (cmax c) = false /\ fgt (additional c) r = false.
Lemma consider_step r i c b : level_ok c -> good (fst b) ->
  good (fst (consider r i c b)) /\ E (fst b) <= E (fst (consider r i c b)) /\
  (eligible r c -> good (benefit c) -> E (benefit c) <= E (fst (consider r i c b))) /\
  (snd (consider r i c b) = snd b \/ snd (consider r i c b) = Some i /\ eligible r c /\ flt (fst b) (benefit c) = true).
Proof.
  intros L G. unfold consider, eligible. destruct (fge (ccur c) (cmax c)) eqn:E1; [split; [exact G|]; split; [lra|]; split; [intros [X _]; discriminate|left; reflexivity]|].
  destruct (fgt (additional c) r) eqn:E2; [split; [exact G|]; split; [lra|]; split; [intros [_ X]; discriminate|left; reflexivity]|].
  fold (benefit c). unfold fgt. destruct (flt (fst b) (benefit c)) eqn:E3; change SFltb with flt; rewrite E3; cbn [fst snd].
  - assert (Gb : good (benefit c)) by (split; [apply benefit_valid; exact L|]; intros X; rewrite X, flt_nan_r in E3; discriminate).
    split; [exact Gb|]. apply flt_E in E3 as E4; auto. split; [lra|]. split; [intros; lra|]. right. auto.
  - split; [exact G|]. split; [lra|]. split; [|left; reflexivity]. intros _ Gb.
    destruct (Rle_or_lt (E (benefit c)) (E (fst b))) as [X|X]; [exact X|]. apply flt_E in X; auto. congruence.
Qed.
Notation all_ok l := (Forall (fun x : Z * comp => level_ok (snd x)) l).
Lemma scan_app r l1 : forall l2 i b, scan_best r i (l1 ++ l2) b = scan_best r (i + length l1) l2 (scan_best r i l1 b).
Proof.
  induction l1 as [|[k c] q IH]; intros l2 i b; cbn [app scan_best length]; [rewrite Nat.add_0_r; reflexivity|].
  rewrite IH. f_equal. lia.
Qed.
Lemma scan_mono r l : forall i b, all_ok l -> good (fst b) -> good (fst (scan_best r i l b)) /\ E (fst b) <= E (fst (scan_best r i l b)).
Proof.
  induction l as [|[k c] q IH]; intros i b F G; cbn [scan_best]; [split; [exact G|lra]|]. inversion F as [|? ? L F']; subst. cbn [snd] in L.
  destruct (consider_step r i c b L G) as (G1 & M1 & _). destruct (IH (S i) _ F' G1) as (G2 & M2). split; [exact G2|lra].
Qed.
Lemma scan_index r l : forall i b k, snd (scan_best r i l b) = Some k -> snd b = Some k \/ (i <= k < i + length l)%nat.
Proof.
  induction l as [|[id c] q IH]; intros i b k H; cbn [scan_best] in H; [auto|]. apply IH in H. cbn [length]. destruct H as [H|H]; [|right; lia].
  destruct (consider_cases r i c b) as [X|(X & _)]; rewrite X in H; [auto|]. injection H as <-. right. lia.
Qed.
(* the component chosen beats every eligible one before it *)
Lemma chosen_beats r l1 i ca l2 j cb l3 : all_ok (l1 ++ (i, ca) :: l2 ++ (j, cb) :: l3) ->
  snd (scan_best r 0 (l1 ++ (i, ca) :: l2 ++ (j, cb) :: l3) (dofZ 0, None)) = Some (length l1 + S (length l2))%nat ->
  eligible r cb /\ good (benefit cb) /\ (eligible r ca -> good (benefit ca) -> E (benefit ca) < E (benefit cb)).
Proof.
  intros F H. apply Forall_app in F as [F1 F]. inversion F as [|? ? La F']; subst. apply Forall_app in F' as [F2 F']. inversion F' as [|? ? Lb F3]; subst. cbn [snd] in *.
  destruct zero_ok as [Z1 Z2]. destruct (okd_good _ Z1) as [G0 _].
  rewrite scan_app in H. cbn [scan_best] in H. rewrite scan_app in H. cbn [scan_best] in H. change (0 + length l1)%nat with (length l1) in H.
  set (b1 := scan_best r 0 l1 (dofZ 0, None)) in *. destruct (scan_mono r l1 0 (dofZ 0, None) F1 G0) as (G1 & _). fold b1 in G1.
  destruct (consider_step r (length l1) ca b1 La G1) as (G2 & _ & M2 & _). set (b2 := consider r (length l1) ca b1) in *.
  destruct (scan_mono r l2 (S (length l1)) b2 F2 G2) as (G3 & M3). set (b3 := scan_best r (S (length l1)) l2 b2) in *.
  replace (S (length l1) + length l2)%nat with (length l1 + S (length l2))%nat in H by lia. set (p := (length l1 + S (length l2))%nat) in *.
  destruct (consider_step r p cb b3 Lb G3) as (_ & _ & _ & C).
  apply scan_index in H. destruct H as [H|H]; [|lia].
  destruct C as [C|(_ & El & Lt)].
  - rewrite C in H. unfold b3 in H. apply scan_index in H. destruct H as [H|H]; [|unfold p in H; lia].
    unfold b2 in H. destruct (consider_cases r (length l1) ca b1) as [X|(X & _)]; rewrite X in H; [|injection H; unfold p; lia].
    unfold b1 in H. apply scan_index in H. destruct H as [H|H]; [discriminate|unfold p in H; lia].
  - assert (Gb : good (benefit cb)) by (split; [apply benefit_valid; exact Lb|]; intros X; rewrite X, flt_nan_r in Lt; discriminate).
    split; [exact El|]. split; [exact Gb|]. intros Ea Ga. apply flt_E in Lt; auto. specialize (M2 Ea Ga). lra.
Qed.

(** *** Twins *)
Definition nl (mn mx x : sf) : sf := fmin (dadd x (ddiv (dsub mx mn) (dofZ 100))) mx.
Definition twins (ca cb : comp) : Prop :=
  cmin ca = cmin cb /\ cmax ca = cmax cb /\ cpmin ca = cpmin cb /\ cpmax ca = cpmax cb /\ R (ccrit cb) <= R (ccrit ca).
Definition ahead (ca cb : comp) : Prop := exists ka kb, (kb <= ka)%nat /\
  ccur ca = Nat.iter ka (nl (cmin ca) (cmax ca)) (cmin ca) /\ ccur cb = Nat.iter kb (nl (cmin ca) (cmax ca)) (cmin ca).
Lemma twins_same ca cb : twins ca cb -> ccur ca = ccur cb -> level_ok ca -> level_ok cb ->
  (forall r, eligible r cb -> eligible r ca) /\ (good (benefit cb) -> good (benefit ca) /\ E (benefit cb) <= E (benefit ca)).
Proof.
  intros (T1 & T2 & T3 & T4 & T5) Hc La Lb. 
  assert (A : additional ca = additional cb) by (unfold additional, next_level_of, step_size, power, with_level; cbn [cmin cmax ccur cpmin cpmax]; rewrite T1, T2, T3, T4, Hc; reflexivity).
  assert (S : step_size ca = step_size cb) by (unfold step_size; rewrite T1, T2; reflexivity).
  split.
  - intros r. unfold eligible. rewrite A, Hc, T2. auto.
  - intros G. unfold benefit in *. rewrite A. destruct (gain_R ca La) as (O1 & R1 & P1). destruct (gain_R cb Lb) as (O2 & R2 & P2).
    apply div_mono; auto; [apply (additional_R cb Lb)| |apply (additional_R cb Lb)]. split; [exact P2|]. rewrite R1, R2, S. apply rnd_mono.
    apply Rmult_le_compat_l; [apply (step_R cb (proj1 Lb))|exact T5].
Qed.
Lemma upd_nth_same i : forall l id c, nth_error l i = Some (id, c) -> nth_error (upd i l) i = Some (id, with_level c (next_level_of c)).
Proof. induction i as [|i IH]; intros [|[k d] q] id c H; cbn [nth_error upd] in *; try discriminate; [injection H as <- <-; reflexivity|apply IH; exact H]. Qed.
Lemma upd_nth_other i : forall l j, i <> j -> nth_error (upd i l) j = nth_error l j.
Proof. induction i as [|i IH]; intros [|[k d] q] [|j] H; cbn [nth_error upd] in *; try reflexivity; try congruence. apply IH. congruence. Qed.
Lemma nth_split2 {A} (l : list A) a b x y : (a < b)%nat -> nth_error l a = Some x -> nth_error l b = Some y ->
  exists l1 l2 l3, l = l1 ++ x :: l2 ++ y :: l3 /\ length l1 = a /\ b = (length l1 + S (length l2))%nat.
Proof.
  intros Hab Ha Hb. apply nth_error_split in Ha. destruct Ha as (l1 & r & -> & La). rewrite nth_error_app2 in Hb by lia.
  destruct (b - length l1)%nat as [|d] eqn:D; [lia|]. cbn [nth_error] in Hb. apply nth_error_split in Hb. destruct Hb as (l2 & l3 & -> & L2).
  exists l1, l2, l3. split; [reflexivity|]. split; [exact La|lia].
Qed.
Lemma nth_next c : next_level_of c = nl (cmin c) (cmax c) (ccur c).
Proof. reflexivity. Qed.
Lemma prio n : forall r l pa pb i j ca cb, all_ok l -> (pa < pb)%nat -> nth_error l pa = Some (i, ca) -> nth_error l pb = Some (j, cb) -> twins ca cb -> ahead ca cb ->
  exists ca' cb', let l' := snd (upgrade_loop n r l) in
    nth_error l' pa = Some (i, ca') /\ nth_error l' pb = Some (j, cb') /\ ahead ca' cb' /\ nolev ca' = nolev ca /\ nolev cb' = nolev cb.
Proof.
  induction n as [|n IH]; intros r l pa pb i j ca cb F Hp Na Nb T A; cbn [upgrade_loop].
  - exists ca, cb. cbn [snd]. auto.
  - destruct (fgt r (dofZ 0)); [|exists ca, cb; cbn [snd]; auto].
    destruct (snd (scan_best r 0 l (dofZ 0, None))) as [k|] eqn:Es; [|exists ca, cb; cbn [snd]; auto].
    destruct (nth_error l k) as [[id c]|] eqn:En; [|exists ca, cb; cbn [snd]; auto].
    pose proof (all_nth _ _ _ _ F Na) as La. pose proof (all_nth _ _ _ _ F Nb) as Lb. pose proof (upd_ok k l F) as F'. pose proof T as (T1 & T2 & T3 & T4 & T5).
    destruct (Nat.eq_dec k pa) as [->|Npa]; [|destruct (Nat.eq_dec k pb) as [->|Npb]].
    + rewrite Na in En. injection En as <- <-.
      destruct (IH (dsub r (additional ca)) (upd pa l) pa pb i j (with_level ca (next_level_of ca)) cb F' Hp) as (ca' & cb' & R1 & R2 & R3 & R4 & R5).
      * apply upd_nth_same. exact Na.
      * rewrite upd_nth_other by lia. exact Nb.
      * exact T.
      * destruct A as (ka & kb & K & A1 & A2). exists (S ka), kb. split; [lia|]. cbn [with_level ccur cmin cmax Nat.iter nat_rect]. split; [|exact A2].
        rewrite nth_next, A1. reflexivity.
      * exists ca', cb'. auto.
    + rewrite Nb in En. injection En as <- <-.
      assert (St : ahead ca (with_level cb (next_level_of cb))).
      { destruct A as (ka & kb & K & A1 & A2). destruct (Nat.eq_dec ka kb) as [->|Nk].
        - exfalso. destruct (twins_same ca cb T ltac:(congruence) La Lb) as [El Ben].
          destruct (nth_split2 l pa pb _ _ Hp Na Nb) as (l1 & l2 & l3 & -> & L1 & ->).
          destruct (chosen_beats r l1 i ca l2 j cb l3 F Es) as (E1 & G1 & Beats). destruct (Ben G1) as [G2 Le]. specialize (Beats (El r E1) G2). lra.
        - exists ka, (S kb). split; [lia|]. cbn [with_level ccur Nat.iter nat_rect]. split; [exact A1|]. rewrite nth_next, <- T1, <- T2, A2. reflexivity. }
      destruct (IH (dsub r (additional cb)) (upd pb l) pa pb i j ca (with_level cb (next_level_of cb)) F' Hp) as (ca' & cb' & R1 & R2 & R3 & R4 & R5).
      * rewrite upd_nth_other by lia. exact Na.
      * apply upd_nth_same. exact Nb.
      * exact T.
      * exact St.
      * exists ca', cb'. auto.
    + destruct (IH (dsub r (additional c)) (upd k l) pa pb i j ca cb F' Hp) as (ca' & cb' & R1); auto; [rewrite upd_nth_other by lia; assumption..|].
      exists ca', cb'. exact R1.
Qed.
Lemma iter_ok c k : sensible c -> level_ok (with_level c (Nat.iter k (nl (cmin c) (cmax c)) (cmin c))).
Proof.
  intros S. induction k as [|k IH]; [apply min_level_ok; exact S|]. cbn [Nat.iter nat_rect]. apply next_ok in IH. exact IH.
Qed.
Lemma iter_mono c k k' : sensible c -> (k <= k')%nat -> R (Nat.iter k (nl (cmin c) (cmax c)) (cmin c)) <= R (Nat.iter k' (nl (cmin c) (cmax c)) (cmin c)).
Proof.
  intros S H. induction H as [|k' H IH]; [lra|]. cbn [Nat.iter nat_rect]. pose proof (next_R _ (iter_ok c k' S)) as (_ & _ & N).
  apply Rle_trans with (1 := IH). exact (proj1 N).
Qed.
Lemma ahead_le ca cb : sensible ca -> ahead ca cb -> R (ccur cb) <= R (ccur ca).
Proof. intros S (ka & kb & K & A & B). rewrite A, B. apply iter_mono; assumption. Qed.

Section O.
Variable ord : list sf -> list nat.
Hypothesis ordS : any_sort ord.
Let ordP := proj1 ordS.
Lemma sorted_desc l p q i ca j cb : Forall (fun x : Z * comp => okd (ccrit (snd x))) l -> (p < q)%nat ->
  nth_error (sorted_comps ord l) p = Some (i, ca) -> nth_error (sorted_comps ord l) q = Some (j, cb) -> R (ccrit cb) <= R (ccrit ca).
Proof.
  intros F H P Q. unfold sorted_comps in *. set (cs := map (fun x => ccrit (snd x)) l) in *.
  assert (Lc : length cs = length l) by (unfold cs; apply map_length).
  assert (Lo : length (ord cs) = length cs) by (rewrite (Permutation_length (ordP cs)); apply seq_length).
  assert (Hq : (q < length cs)%nat) by (rewrite <- Lo; rewrite <- (map_length (fun i => nth i l no_comp)); apply nth_error_Some; congruence).
  assert (X : forall p x, nth_error (map (fun i => nth i l no_comp) (ord cs)) p = Some x -> ccrit (snd x) = nth (nth p (ord cs) O) cs (dofZ 0)).
  { intros p' x Hx. assert (Hp' : (p' < length (ord cs))%nat) by (rewrite <- (map_length (fun i => nth i l no_comp)); apply nth_error_Some; congruence).
    rewrite nth_error_map in Hx. destruct (nth_error (ord cs) p') as [o|] eqn:Eo; [|discriminate]. cbn in Hx. injection Hx as <-.
    rewrite (nth_error_nth (ord cs) p' O Eo).
    assert (Ho : (o < length l)%nat). { apply nth_error_In in Eo. apply (Permutation_in _ (ordP cs)) in Eo. apply in_seq in Eo. lia. }
    unfold cs. rewrite (nth_indep _ (dofZ 0) (ccrit (snd no_comp))) by (rewrite map_length; exact Ho). rewrite (map_nth (fun x => ccrit (snd x))). reflexivity. }
  apply X in P. apply X in Q. cbn [snd] in P, Q. rewrite P, Q. apply Rge_le. apply (proj2 ordS); [|lia].
  unfold cs. apply Forall_map. exact F.
Qed.
Notation all_sens l := (Forall (fun x : Z * comp => sensible (snd x)) l).
Lemma nth_at_min l p : nth_error (at_min l) p = option_map (fun x => (fst x, with_level (snd x) (cmin (snd x)))) (nth_error l p).
Proof. unfold at_min. apply nth_error_map. Qed.
Lemma half_R x : okd x -> 0 <= R x -> okd (dmul x (dlit 5 10)) /\ 0 <= R (dmul x (dlit 5 10)) <= R x.
Proof.
  intros O H. assert (Oh : okd (dlit 5 10)) by (split; vm_compute; reflexivity).
  destruct (frac_budget x (dlit 5 10) O Oh H) as (A & _ & B); [|split; assumption].
  destruct zero_ok as [Z1 Z2]. destruct (ofZ_ex 1 ltac:(reflexivity)) as [O1 O2].
  pose proof (flt_d _ _ Z1 Oh) as A. pose proof (flt_d _ _ Oh O1) as B. rewrite Z2 in A. rewrite O2 in B. split; left; [apply A|apply B]; vm_compute; reflexivity.
Qed.
Theorem prio_rebalanced b l i ca j cb : all_sens l -> In (i, ca) (rebalanced ord b l) -> In (j, cb) (rebalanced ord b l) ->
  twins ca cb -> R (ccrit cb) < R (ccrit ca) -> R (ccur cb) <= R (ccur ca).
Proof.
  intros S Ia Ib T Hlt.
  pose proof (sorted_sens ord ordP l S) as S'. destruct (at_min_ok _ S') as [F _].
  unfold rebalanced in *. destruct (fgt _ _) eqn:Em.
  - apply in_map_iff in Ia. destruct Ia as ([i0 c0] & X & Ia). cbn [fst snd] in X. injection X as <- <-.
    apply in_map_iff in Ib. destruct Ib as ([j0 d0] & X & Ib). cbn [fst snd] in X. injection X as <- <-.
    rewrite Forall_forall in F. pose proof (proj1 (F _ Ia)) as Sc. pose proof (proj1 (F _ Ib)) as Sd. cbn [snd] in Sc, Sd.
    cbn [with_level ccur ccrit] in *. destruct T as (T1 & _). cbn [with_level cmin] in T1. unfold emergency_level. rewrite <- T1.
    destruct Sc as (Oc & _ & _ & _ & Occ & (Sc1 & _) & _). destruct Sd as (_ & _ & _ & _ & Odc & _).
    destruct (half_R (cmin c0) Oc Sc1) as [_ Hh]. assert (O7 : okd (dlit 7 10)) by (apply frac_ok; auto).
    destruct (fgt (ccrit c0) (dlit 7 10)) eqn:Gc, (fgt (ccrit d0) (dlit 7 10)) eqn:Gd; try lra.
    unfold fgt in Gc, Gd. apply flt_dF in Gc; auto. apply flt_d in Gd; auto. lra.
  - set (st := at_min (sorted_comps ord l)) in *. set (r := dsub _ _) in *. clearbody r.
    apply In_nth_error in Ia. destruct Ia as [pa Pa]. apply In_nth_error in Ib. destruct Ib as [pb Pb].
    pose proof (strips_loop 100 r st) as St.
    assert (Back : forall p k c, nth_error (snd (upgrade_loop 100 r st)) p = Some (k, c) -> exists c0, nth_error st p = Some (k, c0) /\ nolev c0 = nolev c).
    { intros p k c Hn. assert (X : nth_error (strips (snd (upgrade_loop 100 r st))) p = Some (strip (k, c))) by (unfold strips; rewrite nth_error_map, Hn; reflexivity).
      rewrite St in X. unfold strips in X. rewrite nth_error_map in X. destruct (nth_error st p) as [[k0 c0]|]; [|discriminate]. cbn [option_map] in X.
      apply some_inj in X. exists c0. unfold strip in X. cbn [fst snd] in X. injection X as -> X1 X2 X3 X4 X5. split; [reflexivity|]. unfold nolev, with_level. congruence. }
    destruct (Back _ _ _ Pa) as (a0 & Na & Ea). destruct (Back _ _ _ Pb) as (b0 & Nb & Eb). apply nolev_eq in Ea. apply nolev_eq in Eb.
    destruct Ea as (A1 & A2 & A3 & A4 & A5), Eb as (B1 & B2 & B3 & B4 & B5), T as (T1 & T2 & T3 & T4 & T5).
    assert (T0 : twins a0 b0) by (unfold twins; rewrite A1, A2, A3, A4, A5, B1, B2, B3, B4, B5; auto).
    assert (Cr : Forall (fun x : Z * comp => okd (ccrit (snd x))) l) by (eapply Forall_impl; [|exact S]; intros x Hx; apply Hx).
    assert (Lv : ccur a0 = cmin a0 /\ ccur b0 = cmin b0).
    { unfold st in Na, Nb. rewrite nth_at_min in Na, Nb. destruct (nth_error (sorted_comps ord l) pa) as [x|]; [|discriminate]. destruct (nth_error (sorted_comps ord l) pb) as [y|]; [|discriminate].
      cbn [option_map] in Na, Nb. injection Na as _ <-. injection Nb as _ <-. split; reflexivity. }
    assert (Hp : (pa < pb)%nat).
    { destruct (Nat.lt_trichotomy pa pb) as [H|[H|H]]; [exact H|exfalso..].
      - subst pb. rewrite Pa in Pb. injection Pb as _ ->. lra.
      - unfold st in Na, Nb. rewrite nth_at_min in Na, Nb. destruct (nth_error (sorted_comps ord l) pa) as [[ka x]|] eqn:Xa; [|discriminate].
        destruct (nth_error (sorted_comps ord l) pb) as [[kb y]|] eqn:Xb; [|discriminate]. cbn [option_map fst snd] in Na, Nb. injection Na as _ <-. injection Nb as _ <-.
        pose proof (sorted_desc l pb pa _ _ _ _ Cr H Xb Xa) as D. cbn [with_level ccrit] in A5, B5. rewrite A5, B5 in D. lra. }
    destruct (prio 100 r st pa pb i j a0 b0 F Hp Na Nb T0) as (a' & b' & R1 & R2 & R3 & _).
    { exists O, O. split; [lia|]. cbn [Nat.iter nat_rect]. destruct Lv as [L1 L2]. split; [exact L1|]. rewrite L2. symmetry. apply T0. }
    cbv zeta in *. rewrite Pa in R1. rewrite Pb in R2. injection R1 as <-. injection R2 as <-.
    apply ahead_le; [|exact R3]. destruct (all_nth _ _ _ _ F Na) as [Sa _]. unfold sensible in *. rewrite A1, A2, A3, A4, A5 in Sa. exact Sa.
Qed.
Theorem priority w st0 ops t s i j a b : pap_run ord ops (pap_new w st0) = Ret (t, s) -> all_sensible t ->
  described t i = Some a -> described t j = Some b ->
  cmin a = cmin b -> cmax a = cmax b -> cpmin a = cpmin b -> cpmax a = cpmax b -> R (ccrit b) < R (ccrit a) ->
  exists x y, pap_level i s = Some x /\ pap_level j s = Some y /\ R y <= R x.
Proof.
  intros Hr As Da Db E1 E2 E3 E4 Hc. pose proof (reachable_inv ord ordP w st0 ops t s Hr) as I.
  destruct (level_of ord _ _ _ _ _ _ I Da) as (ca & _ & Ia & La & Na). destruct (level_of ord _ _ _ _ _ _ I Db) as (cb & _ & Ib & Lb & Nb).
  exists (ccur ca), (ccur cb). split; [exact La|]. split; [exact Lb|].
  apply nolev_eq in Na. apply nolev_eq in Nb. destruct Na as (A1 & A2 & A3 & A4 & A5), Nb as (B1 & B2 & B3 & B4 & B5).
  apply (prio_rebalanced _ _ _ _ _ _ (inv_sens ord _ _ _ _ I As) Ia Ib); [|rewrite A5, B5; exact Hc].
  unfold twins. rewrite A1, A2, A3, A4, A5, B1, B2, B3, B4, B5. repeat split; try assumption. lra.
Qed.
End O.
