From Coq Require Import List NArith ZArith Lia Bool SpecFloat Reals Lra.
Import ListNotations.
From Flocq Require Import Core Relative.
From Flocq.IEEE754 Require Import BinarySingleNaN.
From Verif Require Import Outcome Words Arith Floats FloatsR HealthFloat Crc_Model CrcTMR_Model CrcTMR_Proofs Health_Model Health_Spec.
Local Open Scope R_scope.

Lemma d0_ok : okd d0 /\ R d0 = 0. Proof. split; [split; reflexivity|reflexivity]. Qed.
Lemma d1_ok : okd d1 /\ R d1 = 1. Proof. split; [split; reflexivity|]. vm_compute d1. lit_R. Qed.
Ltac lit := split; [split; reflexivity|]; match goal with |- context [R ?d] => let v := eval vm_compute in d in change d with v end; lit_R.
Lemma d005_ok : okd d005 /\ 49/1000 < R d005 < 51/1000. Proof. lit. Qed.
Lemma d002_ok : okd d002 /\ 19/1000 < R d002 < 21/1000. Proof. lit. Qed.
Lemma d01_ok : okd d01 /\ 99/1000 < R d01 < 101/1000. Proof. lit. Qed.
Lemma d02_ok : okd d02 /\ 199/1000 < R d02 < 201/1000. Proof. lit. Qed.
Lemma d03_ok : okd d03 /\ 299/1000 < R d03 < 301/1000. Proof. lit. Qed.
Lemma d09_ok : okd d09 /\ 899/1000 < R d09 < 901/1000. Proof. lit. Qed.
Lemma d06_ok : okd d06 /\ 599/1000 < R d06 < 601/1000. Proof. lit. Qed.

Local Opaque d1 d005 d002 d01 d02 d03 d09 d06 dadd dsub dmul ddiv.
(** moves of a health score inside [lo, 1] *)
Lemma reward_in lo r h : 0 <= lo -> okd r -> 0 <= R r <= 1 -> inr lo 1 h -> inr lo 1 (fmin d1 (dadd h r)).
Proof.
  intros Hlo Hr [R0 R1] [Hh [H0 H1]]. destruct d1_ok as [O1 E1].
  assert (M : mid (R h + R r)) by (unfold mid; lra).
  destruct (add_d h r Hh Hr M) as [Oa Ea].
  destruct (fmin_d d1 (dadd h r) O1 Oa) as [Om Em]. split; [exact Om|]. rewrite Em, E1, Ea.
  assert (R h <= rnd64 (R h + R r)) by (apply rnd64_ge; [exact Hh|lra]).
  split; [|apply Rmin_l]. apply Rmin_glb; lra.
Qed.
Lemma penalty_in lo fl p h : okd fl -> okd p -> 0 <= lo -> lo <= R fl <= 1 -> 0 <= R p <= 1 -> inr lo 1 h ->
  inr (R fl) 1 (fmax fl (dsub h p)).
Proof.
  intros Hf Hp Hlo [F0 F1] [P0 P1] [Hh [H0 H1]].
  assert (M : mid (R h - R p)) by (unfold mid; lra).
  destruct (sub_d h p Hh Hp M) as [Oa Ea].
  destruct (fmax_d fl (dsub h p) Hf Oa) as [Om Em]. split; [exact Om|]. rewrite Em, Ea.
  assert (rnd64 (R h - R p) <= R h) by (apply rnd64_le; [exact Hh|lra]).
  split; [apply Rmax_l|]. apply Rmax_lub; lra.
Qed.
Lemma inr_weaken lo lo' h : lo' <= lo -> inr lo 1 h -> inr lo' 1 h.
Proof. intros H [Ho [A B]]. split; [exact Ho|lra]. Qed.
Lemma inr_between lo h : okd lo -> inr (R lo) 1 h -> between lo d1 h.
Proof.
  intros Ho [Hh [A B]]. destruct d1_ok as [O1 E1]. split; apply fle_d; auto. rewrite E1. exact B.
Qed.

Lemma forall3 {A} (P : A -> Prop) a b c : P a -> P b -> P c -> Forall P [a; b; c].
Proof. intros. repeat (apply Forall_cons; [assumption|]). apply Forall_nil. Qed.
(** *** tmr::EnhancedTMR *)
Section TE.
Variable lo : Rdefinitions.R.
Hypothesis Hlo : 0 <= lo.
Hypothesis Hlo1 : lo <= R d01.
Definition good (s : te) : Prop := inr lo 1 (eh (e0 s)) /\ inr lo 1 (eh (e1 s)) /\ inr lo 1 (eh (e2 s)).
Lemma one_in : inr lo 1 d1.
Proof. destruct d1_ok as [O E]. destruct d01_ok. split; [exact O|]. lra. Qed.
Lemma nine_in : inr lo 1 d09.
Proof. destruct d09_ok as [O E]. destruct d01_ok. split; [exact O|]. lra. Qed.
Lemma up_in r c : okd r -> 0 <= R r <= 1 -> inr lo 1 (eh c) -> inr lo 1 (eh (up r c)).
Proof. intros. cbn. apply reward_in; assumption. Qed.
Lemma down_in c : inr lo 1 (eh c) -> inr lo 1 (eh (down c)).
Proof.
  intros H. cbn. destruct d01_ok, d02_ok. apply inr_weaken with (R d01); [lra|].
  apply penalty_in with lo; auto; lra.
Qed.
Lemma te_vote_good t s d : good s -> good (snd (te_vote t s d)).
Proof.
  intros [A [B C]]. destruct d005_ok as [O5 B5]. destruct d002_ok as [O2 B2].
  assert (U5 : forall c, inr lo 1 (eh c) -> inr lo 1 (eh (up d005 c))) by (intros; apply up_in; auto; lra).
  assert (U2 : forall c, inr lo 1 (eh c) -> inr lo 1 (eh (up d002 c))) by (intros; apply up_in; auto; lra).
  pose proof down_in as D.
  unfold te_vote. repeat match goal with |- context [if ?b then _ else _] => destruct b end;
    cbn [snd]; unfold good; cbn [e0 e1 e2 with_cells]; auto.
Qed.
Lemma verify_copy_good t i p s' b : good (snd p) -> verify_copy t i p = Ret (b, s') -> good s'.
Proof.
  destruct p as [v s]. cbn [snd]. intros [A [B C]] H. unfold verify_copy in H.
  destruct (te_crc t (ev (esel s i)) =? ek (esel s i))%N.
  { injection H as <- <-. unfold good. auto. }
  assert (P : forall h, inr lo 1 h -> inr lo 1 (fmax d01 (dsub h d03))).
  { intros h Hh. destruct d01_ok, d03_ok. apply inr_weaken with (R d01); [lra|]. apply penalty_in with lo; auto; lra. }
  destruct (cb s) as [[]|]; [discriminate| |];
    injection H as <- <-; destruct i as [|[|i]]; unfold good; cbn; auto.
Qed.
Lemma verify_good t s b s' : good s -> verifyCRCs t s = Ret (b, s') -> good s'.
Proof.
  intros G H. unfold verifyCRCs in H.
  destruct (verify_copy t 0 (true, s)) as [[b0 s0]| | |] eqn:E0; try discriminate. cbn [obind] in H.
  destruct (verify_copy t 1 (b0, s0)) as [[b1 s1]| | |] eqn:E1; try discriminate. cbn [obind] in H.
  apply (verify_copy_good t 2 (b1, s1) s' b); [|exact H]. cbn [snd].
  apply (verify_copy_good t 1 (b0, s0) s1 b1); [|exact E1]. cbn [snd].
  apply (verify_copy_good t 0 (true, s) s0 b0); [exact G|exact E0].
Qed.
Lemma guarded_good {A} s (f : te -> outcome (A * te)) a s' :
  good s -> (forall x, good x -> forall b y, f x = Ret (b, y) -> good y) ->
  guarded s f = Ret (a, s') -> good s'.
Proof.
  intros G Hf H. unfold guarded in H. destruct (locked s); [discriminate|].
  destruct (f (with_lock s true)) as [[b y]| | |] eqn:E; try discriminate. cbn in H. injection H as <- <-.
  apply (Hf (with_lock s true)) in E; [exact E|exact G].
Qed.
Lemma estep_good t s o s' :
  (is_raw o = false \/ forall h, inr lo 1 h -> inr lo 1 (dmul h d09)) ->
  good s -> estep t s o = Ret s' -> good s'.
Proof.
  intros Hr G H. unfold estep in H.
  assert (St : forall A (r : outcome (A * te)), obind r (fun p => Ret (snd p)) = Ret s' -> exists a, r = Ret (a, s')).
  { intros A r E. destruct r as [[a y]| | |]; try discriminate. injection E as <-. eauto. }
  destruct o as [v|now draw| | | |iv hwv|i v k|i v].
  - apply St in H as [a H]. eapply guarded_good; [exact G| |exact H]. intros x Gx b y E. injection E as <- <-.
    repeat split; cbn; apply one_in.
  - apply St in H as [a H]. eapply guarded_good; [exact G| |exact H]. intros x Gx b y E.
    assert (K : exists x1, good x1 /\ (let '(v, s2) := te_vote t x1 draw in
        Ret (v, mkte (e0 s2) (e1 s2) (e2 s2) (use_hw s2) (cb s2) (cblog s2) (sets s2) (gets s2 + 1) (crcfails s2)
        (disagreements s2) (last_time s2) (interval s2) (locked s2))) = Ret (b, y)).
    { cbv beta in E. match type of E with obind (if ?c then _ else _) _ = _ => destruct c end.
      - destruct (verifyCRCs t x) as [[bb x1]| | |] eqn:Ev; try discriminate. cbn [obind] in E.
        eexists. split; [|exact E]. apply (verify_good t x bb x1 Gx Ev).
      - exists x. split; [exact Gx|exact E]. }
    destruct K as [x1 [G1 E1]]. pose proof (te_vote_good t x1 draw G1) as Gv.
    destruct (te_vote t x1 draw) as [v s2]. injection E1 as <- <-. exact Gv.
  - apply St in H as [a H]. eapply guarded_good; [exact G| |exact H]. intros x Gx b y E. apply (verify_good t x b y Gx E).
  - apply St in H as [a H]. eapply guarded_good; [exact G| |exact H]. intros x Gx b y E.
    cbv beta zeta in E. match type of E with (if ?c then _ else _) = _ => destruct c end; injection E as <- <-; [exact Gx|].
    destruct Gx as [A [B C]]. pose proof nine_in.
    unfold good. cbn. repeat split; repeat match goal with |- context [if ?b then _ else _] => destruct b end; auto; try apply H0; try apply A; try apply B; try apply C.
  - apply St in H as [a H]. eapply guarded_good; [exact G| |exact H]. intros x Gx b y E. injection E as <- <-.
    repeat split; cbn; apply one_in.
  - apply St in H as [a H]. eapply guarded_good; [exact G| |exact H]. intros x Gx b y E. injection E as <- <-. exact Gx.
  - injection H as <-. destruct i as [|[|i]]; exact G.
  - destruct Hr as [Hr|Hr]; [discriminate|].
    apply St in H as [a H]. eapply guarded_good; [exact G| |exact H]. intros x Gx b y E. injection E as <- <-.
    destruct Gx as [A [B C]]. destruct i as [|[|[|i]]]; unfold good; cbn; auto.
Qed.
Lemma erun_good t : forall l s s',
  (Forall (fun o => is_raw o = false) l \/ forall h, inr lo 1 h -> inr lo 1 (dmul h d09)) ->
  good s -> erun t s l = Ret s' -> good s'.
Proof.
  induction l as [|o l IH]; intros s s' Hr G H; [injection H as <-; exact G|].
  cbn [erun] in H. destruct (estep t s o) as [s1| | |] eqn:E; try discriminate. cbn [obind] in H.
  apply (IH s1); [|eapply estep_good; [|exact G|exact E]|exact H].
  - destruct Hr as [Hr|Hr]; [left; inversion Hr; assumption|right; exact Hr].
  - destruct Hr as [Hr|Hr]; [left; inversion Hr; assumption|right; exact Hr].
Qed.
End TE.

Lemma te_health_range t v c now l s : Forall (fun o => is_raw o = false) l ->
  erun t (te_construct t v c now) l = Ret s -> Forall (between d01 d1) (te_healths s).
Proof.
  intros Hr H. destruct d01_ok as [O1 B1].
  apply (erun_good (R d01)) in H; [|lra|lra|left; exact Hr|].
  - destruct H as [A [B C]]. apply forall3; apply inr_between; assumption.
  - repeat split; cbn; apply (one_in (R d01)); lra.
Qed.

Lemma tiny_ok : okd tiny /\ R tiny = bpow radix2 (-1074).
Proof.
  split; [split; reflexivity|]. unfold tiny. vm_compute sf64. unfold R, SF2R, F2R. cbn [cond_Zopp Defs.Fnum Defs.Fexp].
  rewrite Rmult_1_l. reflexivity.
Qed.
Lemma tiny_pos : 0 < R tiny. Proof. destruct tiny_ok as [_ ->]. apply bpow_gt_0. Qed.
(* 0.9 times a positive double rounds to a positive double: the smallest one is a fixed point *)
Lemma rnd_tiny : R tiny <= rnd64 (R tiny * R d09).
Proof.
  assert (E : R (dmul tiny d09) = R tiny) by (f_equal; vm_compute; reflexivity).
  destruct tiny_ok as [Ot Et]. destruct d09_ok as [O9 B9].
  assert (Hs : R tiny <= 1) by (rewrite Et; change 1 with (bpow radix2 0); apply bpow_le; lia).
  pose proof tiny_pos.
  destruct (mul_d tiny d09 Ot O9) as [_ M]; [unfold mid; nra|]. rewrite <- M, E. lra.
Qed.
Lemma raw_in h : inr (R tiny) 1 h -> inr (R tiny) 1 (dmul h d09).
Proof.
  intros [Hh [A B]]. destruct d09_ok as [O9 B9]. pose proof tiny_pos. destruct d1_ok as [O1 E1].
  assert (M : mid (R h * R d09)) by (unfold mid; nra).
  destruct (mul_d h d09 Hh O9 M) as [Om Em]. split; [exact Om|]. rewrite Em. split.
  - apply Rle_trans with (1 := rnd_tiny). apply (rnd_le 53 1024). nra.
  - rewrite <- E1. apply rnd64_le; [exact O1|]. rewrite E1. nra.
Qed.
Lemma te_health_range_raw t v c now l s :
  erun t (te_construct t v c now) l = Ret s -> Forall (fun h => flt d0 h = true /\ fle h d1 = true) (te_healths s).
Proof.
  intros H. destruct d01_ok as [O1 B1]. pose proof tiny_pos. destruct tiny_ok as [Ot Et].
  assert (Hs : R tiny <= R d01).
  { rewrite Et. apply Rle_trans with (bpow radix2 (-10)); [apply bpow_le; lia|].
    change (bpow radix2 (-10)) with (/ 1024). lra. }
  apply (erun_good (R tiny)) in H; [|lra|lra|right; apply raw_in|].
  - assert (K : forall h, inr (R tiny) 1 h -> flt d0 h = true /\ fle h d1 = true).
    { intros h [Hh [A B]]. destruct d0_ok as [Oz Ez], d1_ok as [Oo Eo]. split; [apply flt_d|apply fle_d]; auto; lra. }
    destruct H as [A [B C]]. apply forall3; apply K; assumption.
  - repeat split; cbn; apply (one_in (R tiny)); lra.
Qed.

(** *** C21: the vote *)
Lemma te_vote_value t s d :
  let a := ev (e0 s) in let b := ev (e1 s) in let c := ev (e2 s) in
  let r := fst (te_vote t s d) in
  In r [a; b; c] /\
  (forall x y, (x, y) = (a, b) \/ (x, y) = (a, c) \/ (x, y) = (b, c) -> eqT t x y = true -> eqT t r x = true).
Proof.
  cbv zeta. unfold te_vote.
  set (a := ev (e0 s)). set (b := ev (e1 s)). set (c := ev (e2 s)).
  assert (RR : forall x y, eqT t x y = true -> eqT t x x = true).
  { intros x y H. rewrite eqT_refl. rewrite eqT_spec in H. destruct (is_nan t x); [discriminate|reflexivity]. }
  assert (T := eqT_trans t).
  assert (Sy : forall x y, eqT t x y = true -> eqT t y x = true) by (intros; rewrite eqT_sym; assumption).
  split.
  - repeat match goal with |- context [if ?b then _ else _] => destruct b end; cbn; auto.
  - intros x y Hp Hxy.
    assert (G : (if eqT t a b then a else if eqT t a c then a else if eqT t b c then b else x) = fst (te_vote t s d) ->
                eqT t (fst (te_vote t s d)) x = true).
    { intros <-. destruct Hp as [E|[E|E]]; injection E as -> ->; rewrite ?Hxy.
      - eauto.
      - destruct (eqT t a b); eauto.
      - destruct (eqT t a b) eqn:E1; [eauto|]. destruct (eqT t a c) eqn:E2; [|eauto].
        exfalso. assert (eqT t a b = true) by eauto. congruence. }
    apply G. clear G. unfold te_vote. fold a b c.
    destruct (eqT t a b) eqn:Eab; cbn [andb].
    { repeat match goal with |- context [if ?b then _ else _] => destruct b end; reflexivity. }
    destruct (eqT t a c) eqn:Eac.
    { repeat match goal with |- context [if ?b then _ else _] => destruct b end; reflexivity. }
    destruct (eqT t b c) eqn:Ebc.
    { repeat match goal with |- context [if ?b then _ else _] => destruct b end; reflexivity. }
    exfalso. destruct Hp as [E|[E|E]]; injection E as -> ->; congruence.
Qed.

(** the mutex: every call that starts unlocked and returns leaves it unlocked; a call other than clone()
    returns unless the callback re-enters the object *)
Lemma verify_copy_total t i p : (forall b, cb (snd p) = Some b -> b = false) -> exists b s',
  verify_copy t i p = Ret (b, s') /\ cb s' = cb (snd p) /\ locked s' = locked (snd p) /\
  ev (e0 s') = ev (e0 (snd p)) /\ ev (e1 s') = ev (e1 (snd p)) /\ ev (e2 s') = ev (e2 (snd p)).
Proof.
  destruct p as [v s]. cbn [snd]. intros Hc. unfold verify_copy.
  destruct (te_crc t (ev (esel s i)) =? ek (esel s i))%N; [exists v, s; repeat split|].
  destruct (cb s) as [[]|] eqn:Ec; [discriminate (Hc true eq_refl)| |];
    eexists _, _; (split; [reflexivity|]); destruct i as [|[|i]]; cbn; auto 8.
Qed.
Lemma verify_total t s : (forall b, cb s = Some b -> b = false) -> exists b s',
  verifyCRCs t s = Ret (b, s') /\ cb s' = cb s /\ locked s' = locked s /\
  ev (e0 s') = ev (e0 s) /\ ev (e1 s') = ev (e1 s) /\ ev (e2 s') = ev (e2 s).
Proof.
  intros Hc. unfold verifyCRCs.
  destruct (verify_copy_total t 0 (true, s) Hc) as (b0 & s0 & E0 & C0 & L0 & A0 & B0 & D0). rewrite E0. cbn [obind snd] in *.
  rewrite <- C0 in Hc. destruct (verify_copy_total t 1 (b0, s0) Hc) as (b1 & s1 & E1 & C1 & L1 & A1 & B1 & D1). rewrite E1. cbn [obind snd] in *.
  rewrite <- C1 in Hc. destruct (verify_copy_total t 2 (b1, s1) Hc) as (b2 & s2 & E2 & C2 & L2 & A2 & B2 & D2). rewrite E2. cbn [snd] in *.
  exists b2, s2. repeat split; congruence.
Qed.
Lemma te_vote_keeps t s d : let s' := snd (te_vote t s d) in
  cb s' = cb s /\ locked s' = locked s /\
  ev (e0 s') = ev (e0 s) /\ ev (e1 s') = ev (e1 s) /\ ev (e2 s') = ev (e2 s).
Proof.
  cbv zeta. unfold te_vote. repeat match goal with |- context [if ?b then _ else _] => destruct b end; cbn; auto 8.
Qed.
Lemma te_get_value t now d s : locked s = false -> (forall b, cb s = Some b -> b = false) ->
  let a := ev (e0 s) in let b := ev (e1 s) in let c := ev (e2 s) in
  exists r s', te_get t now d s = Ret (r, s') /\ locked s' = false /\
  In r [a; b; c] /\
  (forall x y, (x, y) = (a, b) \/ (x, y) = (a, c) \/ (x, y) = (b, c) -> eqT t x y = true -> eqT t r x = true).
Proof.
  intros Hl Hc. cbv zeta. unfold te_get, guarded. rewrite Hl.
  assert (K : exists s1, (if (interval (with_lock s true) <=? now - last_time (with_lock s true))%Z
           then obind (verifyCRCs t (with_lock s true)) (fun '(_, s1) => Ret (mkte (e0 s1) (e1 s1) (e2 s1) (use_hw s1) (cb s1) (cblog s1)
                   (sets s1) (gets s1) (crcfails s1) (disagreements s1) now (interval s1) (locked s1)))
           else Ret (with_lock s true)) = Ret s1 /\
    ev (e0 s1) = ev (e0 s) /\ ev (e1 s1) = ev (e1 s) /\ ev (e2 s1) = ev (e2 s)).
  { destruct (interval (with_lock s true) <=? now - last_time (with_lock s true))%Z.
    - destruct (verify_total t (with_lock s true) Hc) as (b & s1 & E & _ & _ & A & B & C). rewrite E. cbn [obind].
      eexists. split; [reflexivity|]. cbn. auto.
    - eexists. split; [reflexivity|]. cbn. auto. }
  destruct K as (s1 & E & A & B & C). rewrite E. cbn [obind].
  pose proof (te_vote_value t s1 d) as Vv. cbv zeta in Vv. rewrite A, B, C in Vv.
  destruct (te_vote t s1 d) as [r s2]. cbn [obind fst] in *.
  eexists _, _. split; [reflexivity|]. split; [reflexivity|]. exact Vv.
Qed.
Lemma te_clone_deadlocks t now d s : te_clone t now d s = UB UB_relock.
Proof. unfold te_clone, guarded. destruct (locked s) eqn:L; [reflexivity|]. unfold te_get, guarded. reflexivity. Qed.
Lemma te_step_returns t s o : locked s = false -> (forall b, cb s = Some b -> b = false) ->
  exists s', estep t s o = Ret s' /\ locked s' = false /\ cb s' = cb s.
Proof.
  intros Hl Hc. destruct o as [v|now draw| | | |iv hwv|i v k|i v]; cbn [estep].
  - unfold te_set, guarded. rewrite Hl. eexists. split; [reflexivity|]. split; reflexivity.
  - unfold te_get, guarded. rewrite Hl.
    destruct (interval (with_lock s true) <=? now - last_time (with_lock s true))%Z.
    + destruct (verify_total t (with_lock s true) Hc) as (b & s1 & E & Cb & _). rewrite E. cbn [obind].
      match goal with |- context [te_vote t ?x draw] => pose proof (te_vote_keeps t x draw) as K; destruct (te_vote t x draw) as [r s2] end.
      cbn [obind snd] in *. eexists. split; [reflexivity|]. split; [reflexivity|]. cbn. destruct K as [-> _]. exact Cb.
    + cbn [obind]. pose proof (te_vote_keeps t (with_lock s true) draw) as K. destruct (te_vote t (with_lock s true) draw) as [r s2].
      cbn [obind snd] in *. eexists. split; [reflexivity|]. split; [reflexivity|]. cbn. apply K.
  - unfold te_verify, guarded. rewrite Hl. destruct (verify_total t (with_lock s true) Hc) as (b & s1 & E & Cb & _).
    rewrite E. eexists. split; [reflexivity|]. split; [reflexivity|exact Cb].
  - unfold te_regenerate, guarded. rewrite Hl. cbv zeta.
    match goal with |- context [if flt ?x d06 then _ else _] => destruct (flt x d06) end;
      (eexists; split; [reflexivity|]; split; reflexivity).
  - unfold te_reset, guarded. rewrite Hl. eexists. split; [reflexivity|]. split; reflexivity.
  - unfold te_config, guarded. rewrite Hl. eexists. split; [reflexivity|]. split; reflexivity.
  - destruct i as [|[|i]]; (eexists; split; [reflexivity|]; split; [exact Hl|reflexivity]).
  - unfold te_setRaw, guarded. rewrite Hl. destruct i as [|[|[|i]]]; (eexists; split; [reflexivity|]; split; reflexivity).
Qed.
Lemma te_run_returns t : forall l s, locked s = false -> (forall b, cb s = Some b -> b = false) ->
  exists s', erun t s l = Ret s' /\ locked s' = false /\ cb s' = cb s.
Proof.
  induction l as [|o l IH]; intros s Hl Hc; [exists s; auto|].
  destruct (te_step_returns t s o Hl Hc) as (s1 & E & L1 & C1). cbn [erun]. rewrite E. cbn [obind].
  destruct (IH s1 L1) as (s' & E' & L' & C'); [rewrite C1; exact Hc|]. exists s'. rewrite C'. auto.
Qed.
(* a callback that calls back deadlocks as soon as verify() finds an error *)
Lemma te_reentrant_callback t s : locked s = false -> cb s = Some true ->
  te_crc t (ev (e0 s)) <> ek (e0 s) -> te_verify t s = UB UB_relock.
Proof.
  intros Hl Hc Hne. unfold te_verify, guarded. rewrite Hl. unfold verifyCRCs, verify_copy. cbn [esel with_lock e0].
  destruct (N.eqb_spec (te_crc t (ev (e0 s))) (ek (e0 s))); [contradiction|]. cbn [with_lock cb]. rewrite Hc. reflexivity.
Qed.
(* draw 0 always picks copy 0, whatever its CRC says *)
Lemma te_crc_ignored t now s : locked s = false -> use_hw s = true -> (now - last_time s < interval s)%Z ->
  eqT t (ev (e0 s)) (ev (e1 s)) = false -> eqT t (ev (e0 s)) (ev (e2 s)) = false -> eqT t (ev (e1 s)) (ev (e2 s)) = false ->
  (forall h, In h (te_healths s) -> flt d0 h = true /\ fle h d1 = true) -> Forall okd (te_healths s) ->
  exists s', te_get t now d0 s = Ret (ev (e0 s), s').
Proof.
  intros Hl Hu Hn E1 E2 E3 Hh Ho. unfold te_get, guarded. rewrite Hl. cbn [with_lock interval last_time].
  destruct (Z.leb_spec (interval s) (now - last_time s)); [lia|]. cbn [obind].
  unfold te_vote. cbn [with_lock e0 e1 e2 use_hw]. rewrite E1, E2, E3, Hu. cbn [andb].
  destruct (fle _ d0); cbn [obind]; [eexists; reflexivity|].
  assert (F : fle d0 (dadd d0 (eh (e0 s))) = true).
  { destruct d0_ok as [Oz Ez]. destruct (Hh (eh (e0 s))) as [A B]; [left; reflexivity|].
    inversion Ho as [|x l O0 _]; subst. destruct d1_ok as [Oo Eo].
    apply flt_d in A; auto. apply fle_d in B; auto.
    destruct (add_d d0 (eh (e0 s)) Oz O0) as [Oa Ea]; [unfold mid; lra|].
    apply fle_d; auto. rewrite Ea, Ez. rewrite <- Ez at 1. apply rnd64_ge; [exact Oz|]. lra. }
  rewrite F. cbn [obind]. eexists. reflexivity.
Qed.
Lemma te_bad_crc_returned t v a b now0 now : (now - now0 < 5000)%Z ->
  eqT t a b = false -> eqT t a v = false -> eqT t b v = false -> 
  exists s s', erun t (te_construct t v None now0) [TCorrupt 0 a (N.lxor (te_crc t a) 1); TCorrupt 1 b (te_crc t b)] = Ret s /\
    ek (e0 s) <> te_crc t (ev (e0 s)) /\ ek (e1 s) = te_crc t (ev (e1 s)) /\ ek (e2 s) = te_crc t (ev (e2 s)) /\
    te_get t now d0 s = Ret (ev (e0 s), s').
Proof.
  intros Hn E1 E2 E3.
  assert (exists s', te_get t now d0 (te_corrupt 1 b (te_crc t b) (te_corrupt 0 a (N.lxor (te_crc t a) 1) (te_construct t v None now0))) = Ret (a, s')) as [s' E].
  { destruct d1_ok as [O1 V1], d0_ok as [O0 V0].
    apply (te_crc_ignored t now (te_corrupt 1 b (te_crc t b) (te_corrupt 0 a (N.lxor (te_crc t a) 1) (te_construct t v None now0)))); auto.
    - cbn [te_healths te_corrupt te_construct with_cells e0 e1 e2 eh]. intros h Hin.
      assert (h = d1) as -> by (destruct Hin as [E|[E|[E|[]]]]; symmetry; exact E).
      split; ((apply flt_d; auto; lra) || (apply fle_d; auto; lra)).
    - cbn [te_healths te_corrupt te_construct with_cells e0 e1 e2 eh]. apply forall3; exact O1. }
  eexists _, s'. split; [reflexivity|]. cbn [te_corrupt te_construct with_cells e0 e1 e2 ek ev] in *.
  split; [|split; [reflexivity|split; [reflexivity|exact E]]].
  intros H. assert (X : N.lxor (N.lxor (te_crc t a) (te_crc t a)) 1 = 0%N).
  { rewrite N.lxor_assoc, H. apply N.lxor_nilpotent. }
  rewrite N.lxor_nilpotent in X. discriminate.
Qed.
