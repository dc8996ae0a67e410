(** Fields in motion: histories of writes, the evolution equations, energies, the multi-particle simulation. *)
From Coq Require Import List NArith ZArith Bool Arith Lia SpecFloat FinFun.
Import ListNotations.
From Verif Require Import Outcome Words Floats FloatsR Bits_Model Qft_Model Qft_Spec Qft_Proofs.
Local Open Scope Z_scope.

(** ** histories *)
Lemma pos_eqb_iff p q : pos_eqb p q = true <-> p = q.
Proof.
  revert q. induction p as [|x a IH]; intros [|y b]; cbn [pos_eqb]; split; intros H; try discriminate; try reflexivity.
  - apply andb_true_iff in H. destruct H as [A B]. apply Z.eqb_eq in A. apply IH in B. congruence.
  - injection H as -> ->. rewrite Z.eqb_refl. apply IH. reflexivity.
Qed.
Lemma call_step_ok f c : built f -> built (call_step f c) /\ f_dims (call_step f c) = f_dims f /\ f_spacing (call_step f c) = f_spacing f /\
  forall pos, inside (f_dims f) pos -> at_ (call_step f c) pos = match c with CSet p w => if pos_eqb p pos then w else at_ f pos | CType _ => at_ f pos end.
Proof.
  intros B. destruct c as [p w|t]; cbn [call_step].
  - destruct (list_eq_dec Nat.eq_dec [length p] [length (f_dims f)]) as [L|L].
    + assert (L' : length p = length (f_dims f)) by congruence.
      assert (DI : inside (f_dims f) p \/ ~ inside (f_dims f) p).
      { clear. generalize (f_dims f). induction p as [|x a IH]; intros [|d r]; try (left; constructor; fail); try (right; intros H; inversion H; fail).
        destruct (IH r) as [I|I]; [|right; intros H; inversion H; subst; auto]. destruct (Z_le_dec 0 x); [|right; intros H; inversion H; subst; lia].
        destruct (Z_lt_dec x d); [left; constructor; auto|right; intros H; inversion H; subst; lia]. }
      destruct DI as [I|I].
      * destruct (set_get f p w B I) as (g & E & SH & BG & A & O). rewrite E. split; [exact BG|]. split; [apply SH|]. split; [apply SH|].
        intros pos IP. destruct (pos_eqb p pos) eqn:Q; [apply pos_eqb_iff in Q; rewrite <- Q; exact A|]. apply O; [exact IP|]. intros ->. rewrite (proj2 (pos_eqb_iff p p) eq_refl) in Q. discriminate.
      * rewrite (set_bad f p w (built_wide f B) L' I). split; [exact B|]. split; [reflexivity|]. split; [reflexivity|]. intros pos IP.
        destruct (pos_eqb p pos) eqn:Q; [apply pos_eqb_iff in Q; subst; contradiction|reflexivity].
    + rewrite set_arity by congruence. split; [exact B|]. split; [reflexivity|]. split; [reflexivity|]. intros pos IP.
      destruct (pos_eqb p pos) eqn:Q; [apply pos_eqb_iff in Q; subst; apply inside_len in IP; congruence|reflexivity].
  - split; [exact B|]. split; [reflexivity|]. split; [reflexivity|]. reflexivity.
Qed.
Lemma call_run_ok h : forall f, built f -> built (call_run f h) /\ f_dims (call_run f h) = f_dims f /\ f_spacing (call_run f h) = f_spacing f /\
  forall pos, inside (f_dims f) pos -> at_ (call_run f h) pos = fold_left (fun v c => match c with CSet p w => if pos_eqb p pos then w else v | CType _ => v end) h (at_ f pos).
Proof.
  induction h as [|c r IH]; intros f B; cbn [call_run fold_left]; [auto|].
  destruct (call_step_ok f c B) as (B1 & D1 & S1 & A1). destruct (IH (call_step f c) B1) as (B2 & D2 & S2 & A2). fold (call_run (call_step f c) r).
  split; [exact B2|]. split; [congruence|]. split; [congruence|]. intros pos I. rewrite A2 by (rewrite D1; exact I). rewrite (A1 pos I). destruct c; reflexivity.
Qed.

(** ** evolution *)
Section Lib.
Variables (fexp fpow2 fsin fcos : sf -> sf) (cabs carg : cplx -> sf).
Notation coh := (initializeCoherentState fexp fsin fcos).
Lemma coherent_ok amp phase f : built f -> exists g, coh amp phase f = Ret g /\ same_shape f g /\
  forall pos, inside (f_dims f) pos -> at_ g pos = coherent_at fexp fsin fcos (f_dims f) amp phase pos.
Proof.
  intros B. unfold initializeCoherentState.
  destruct (update_loop (f_dims f) (fun pos g => setFieldAt g pos (coherent_at fexp fsin fcos (f_dims f) amp phase pos)) (fun pos _ => coherent_at fexp fsin fcos (f_dims f) amp phase pos))
    with (ps := positions (f_dims f)) (f := f) as (h & E & SH & A & O).
  - intros k pos Bk Dk Ik. destruct (set_get k pos (coherent_at fexp fsin fcos (f_dims f) amp phase pos) Bk) as (g & E & SH & _ & A & O); [rewrite Dk; exact Ik|].
    rewrite Dk in O. exists g. auto.
  - exact B.
  - reflexivity.
  - apply positions_nodup.
  - intros p P. apply positions_in. exact P.
  - exists h. split; [exact E|]. split; [exact SH|]. intros pos I. apply A, positions_in, I.
Qed.
Notation pt := (evolve_point fsin fcos cabs carg).
Lemma steps_ok q n : forall f, built f -> exists g, evolve_steps fsin fcos cabs carg q n f = Ret g /\ same_shape f g /\
  forall pos, inside (f_dims f) pos -> at_ g pos = iter n (pt q) (at_ f pos).
Proof.
  induction n as [|k IH]; intros f B; cbn [evolve_steps iter].
  - exists f. split; [reflexivity|]. split; [apply shape_refl|auto].
  - destruct (sweep_ok (fun _ v => Ret (pt q v)) (fun _ v => pt q v) f B) as (h & E & SH & A); [reflexivity|]. rewrite E. cbn [obind].
    destruct (IH h (shape_built _ _ SH B)) as (g & E2 & SH2 & A2). exists g. split; [exact E2|]. split; [exact (shape_trans _ _ _ SH SH2)|].
    intros pos I. rewrite A2 by (destruct SH as (_ & _ & D & _); rewrite D; exact I). rewrite (A pos I). reflexivity.
Qed.
Lemma steps_app q a : forall b f, evolve_steps fsin fcos cabs carg q (a + b) f = obind (evolve_steps fsin fcos cabs carg q a f) (evolve_steps fsin fcos cabs carg q b).
Proof.
  induction a as [|k IH]; intros b f; [reflexivity|]. cbn [Nat.add evolve_steps]. destruct (sweep _ f); cbn [obind]; try reflexivity. apply IH.
Qed.

Lemma fold_add l : forall a, fold_left Z.add l a = a + fold_left Z.add l 0.
Proof. induction l as [|x r IH]; intros a; cbn [fold_left]; [lia|]. rewrite (IH (a + x)), (IH (0 + x)). lia. Qed.
Lemma sum_bound dims pos : inside dims pos -> 0 <= fold_left Z.add pos 0 < points dims.
Proof. intros H. induction H; cbn [fold_left points]; [lia|]. rewrite fold_add. nia. Qed.
(** the value a Klein-Gordon step gives a point *)
Definition kg_value (q : qparams) (pos : list Z) (v : cplx) : cplx :=
  let phase := dadd (carg v) (dmul (time_step q) (phase_rate q)) in
  cscale (fcos phase, fsin phase)
    (dmul (dmul (cabs v) (dadd d1 (dmul (pos_amp q) (fsin (dofZ (fold_left Z.add pos 0)))))) (dsub d1 (dmul (damping q) (time_step q)))).
Lemma kg_ok q t f : built f -> f_type f = t -> exists g, kg_evolve fsin fcos cabs carg q t f = Ret g /\ same_shape f g /\
  forall pos, inside (f_dims f) pos -> at_ g pos = kg_value q pos (at_ f pos).
Proof.
  intros B T. unfold kg_evolve. assert (E : ptype_eqb (f_type f) t = true) by (subst; destruct (f_type f); reflexivity). rewrite E. cbn [negb].
  apply sweep_ok; [exact B|]. intros pos v I. unfold kg_point. pose proof (sum_bound _ _ I) as SB. destruct B as (P & L & M).
  assert (X : int_max <? fold_left Z.add pos 0 = false) by (apply Z.ltb_ge; big; lia). rewrite X. reflexivity.
Qed.
Lemma ptype_eqb_iff a b : ptype_eqb a b = true <-> a = b.
Proof. split; [|intros ->; destruct b; reflexivity]. destruct a, b; cbn; intros; congruence. Qed.
Lemma ptype_neqb a b : a <> b -> ptype_eqb a b = false.
Proof. intros N. destruct (ptype_eqb a b) eqn:E; [|reflexivity]. apply ptype_eqb_iff in E. contradiction. Qed.
Lemma kg_mismatch q t f : f_type f <> t -> kg_evolve fsin fcos cabs carg q t f = Throw E_invalid_argument.
Proof. intros N. unfold kg_evolve. rewrite (ptype_neqb _ _ N). reflexivity. Qed.
Lemma dirac_same q t f : dirac_evolve q t f = f.
Proof. unfold dirac_evolve. destruct (negb _); reflexivity. Qed.

(** ** Maxwell *)
Notation mp := (maxwell_pair fsin fcos).
Lemma mloop_ok q c dims : forall ps e b, built e -> built b -> f_dims e = dims -> f_dims b = dims -> NoDup ps -> (forall p, In p ps -> inside dims p) ->
  exists e' b', maxwell_loop fsin fcos q c ps e b = (e', b', Ret tt) /\ same_shape e e' /\ same_shape b b' /\
   (forall p, In p ps -> at_ e' p = fst (mp q c p (at_ e p) (at_ b p)) /\ at_ b' p = snd (mp q c p (at_ e p) (at_ b p))) /\
   (forall p, inside dims p -> ~ In p ps -> at_ e' p = at_ e p /\ at_ b' p = at_ b p).
Proof.
  induction ps as [|p r IH]; intros e b Be Bb De Db N I; cbn [maxwell_loop].
  - exists e, b. split; [reflexivity|]. split; [apply shape_refl|]. split; [apply shape_refl|]. split; [intros p []|auto].
  - assert (Ip : inside dims p) by (apply I; left; reflexivity). inversion N; subst.
    rewrite (get_ok e p Be Ip). rewrite (get_ok b p Bb) by (rewrite Db; exact Ip).
    destruct (mp q c p (at_ e p) (at_ b p)) as [ne nb] eqn:M.
    destruct (set_get e p ne Be Ip) as (e1 & E1 & S1 & B1 & A1 & O1). destruct (set_get b p nb Bb) as (b1 & F1 & T1 & C1 & G1 & P1); [rewrite Db; exact Ip|].
    rewrite E1, F1. destruct (IH e1 b1 B1 C1) as (e' & b' & E' & S' & T' & A' & O'); [apply S1|rewrite <- Db; apply T1|assumption|intros; apply I; right; assumption|].
    exists e', b'. split; [exact E'|]. split; [exact (shape_trans _ _ _ S1 S')|]. split; [exact (shape_trans _ _ _ T1 T')|]. rewrite Db in P1. split.
    + intros x [<-|X].
      * destruct (O' p Ip H1) as [Q1 Q2]. rewrite Q1, Q2, A1, G1, M. auto.
      * destruct (A' x X) as [Q1 Q2]. assert (x <> p) by (intros ->; contradiction). assert (inside (f_dims e) x) by (apply I; right; exact X).
        rewrite Q1, Q2, O1, P1 by assumption. auto.
    + intros x IX NX. assert (x <> p) by (intros ->; apply NX; left; reflexivity). destruct (O' x IX) as [Q1 Q2]; [intros C; apply NX; right; exact C|].
      rewrite Q1, Q2, O1, P1 by assumption. auto.
Qed.
Lemma maxwell_ok q c e b : built e -> built b -> f_dims b = f_dims e -> f_type e = Photon -> f_type b = Photon -> couplings q Photon = Some c ->
  exists e' b', maxwell_evolve fsin fcos q e b = (e', b', Ret tt) /\ same_shape e e' /\ same_shape b b' /\
   forall p, inside (f_dims e) p -> at_ e' p = fst (mp q (clamp_coupling c) p (at_ e p) (at_ b p)) /\ at_ b' p = snd (mp q (clamp_coupling c) p (at_ e p) (at_ b p)).
Proof.
  intros Be Bb D Te Tb C. unfold maxwell_evolve, getCoupling. rewrite Te, Tb, C. cbn [ptype_eqb negb orb].
  destruct (mloop_ok q (clamp_coupling c) (f_dims e) (positions (f_dims e)) e b Be Bb eq_refl D (positions_nodup _)) as (e' & b' & E & S1 & S2 & A & _); [intros p P; apply positions_in; exact P|].
  exists e', b'. split; [exact E|]. split; [exact S1|]. split; [exact S2|]. intros p I. apply A, positions_in, I.
Qed.
Lemma maxwell_type q e b : f_type e <> Photon \/ f_type b <> Photon -> maxwell_evolve fsin fcos q e b = (e, b, Throw E_invalid_argument).
Proof. intros H. unfold maxwell_evolve. destruct H as [H|H]; rewrite (ptype_neqb _ _ H); cbn [negb]; [reflexivity|]. rewrite orb_true_r. reflexivity. Qed.
Lemma maxwell_nocoupling q e b : f_type e = Photon -> f_type b = Photon -> couplings q Photon = None -> maxwell_evolve fsin fcos q e b = (e, b, Throw E_runtime_error).
Proof. intros A B C. unfold maxwell_evolve, getCoupling. rewrite A, B, C. reflexivity. Qed.

(** ** energies *)
Definition mass_for (q : qparams) (t : option ptype) (f : field) : option sf := masses q (match t with Some k => k | None => f_type f end).
Lemma inner_inside dims p : In p (inner dims) -> exists i j k a b c, p = [i; j; k] /\ dims = [a; b; c] /\ 1 <= i < a - 1 /\ 1 <= j < b - 1 /\ 1 <= k < c - 1.
Proof.
  destruct dims as [|a [|b [|c [|]]]]; cbn [inner]; try (intros []). destruct ((2 <? a) && (2 <? b) && (2 <? c)) eqn:E; [|intros []].
  intros H. apply in_flat_map in H. destruct H as (i & I & H). apply in_flat_map in H. destruct H as (j & J & H). apply in_map_iff in H. destruct H as (k & <- & K).
  apply zrange_in in I, J, K. exists i, j, k, a, b, c. repeat split; lia.
Qed.
Lemma for_each_ret {A S : Type} (body : A -> S -> outcome S) (P : S -> Prop) l : forall s, P s -> (forall x s, In x l -> P s -> exists s', body x s = Ret s' /\ P s') ->
  exists s', for_each body l s = Ret s' /\ P s'.
Proof.
  induction l as [|x r IH]; intros s H HB; cbn [for_each]; [eauto|]. destruct (HB x s (or_introl eq_refl) H) as (s' & E & Q). rewrite E. cbn [obind].
  apply IH; [exact Q|]. intros y t I. apply HB. right. exact I.
Qed.
Lemma inside3 a b c i j k : 0 <= i < a -> 0 <= j < b -> 0 <= k < c -> inside [a; b; c] [i; j; k].
Proof. intros. repeat constructor; lia. Qed.
(** the term the kinetic energy sums at an inner point *)
Definition kin_term (q : qparams) (mass : sf) (f : field) (i j k : Z) : sf :=
  ddiv (dmul (dmul (dmul (cnorm (laplacian (f_spacing f) (at_ f [i; j; k]) (at_ f [i + 1; j; k]) (at_ f [i - 1; j; k]) (at_ f [i; j + 1; k]) (at_ f [i; j - 1; k])
                                 (at_ f [i; j; k + 1]) (at_ f [i; j; k - 1]))) (dq 1 2)) (hbar q)) (hbar q)) mass.
Lemma kin_step q mass f p acc : built f -> In p (inner (f_dims f)) -> exists i j k, p = [i; j; k] /\ kinetic_at q mass f p acc = Ret (dadd acc (kin_term q mass f i j k)).
Proof.
  intros B I. destruct (inner_inside _ _ I) as (i & j & k & a & b & c & -> & D & H1 & H2 & H3). exists i, j, k. split; [reflexivity|]. unfold kinetic_at.
  assert (G : forall x y z, 0 <= x < a -> 0 <= y < b -> 0 <= z < c -> getFieldAt f [x; y; z] = Ret (at_ f [x; y; z])) by (intros; apply get_ok; [exact B|rewrite D; apply inside3; lia]).
  unfold kin_term. generalize (dq 1 2). intros half.
  rewrite (G i j k) by lia. cbn [obind]. rewrite (G (i + 1) j k) by lia. cbn [obind]. rewrite (G (i - 1) j k) by lia. cbn [obind]. rewrite (G i (j + 1) k) by lia. cbn [obind].
  rewrite (G i (j - 1) k) by lia. cbn [obind]. rewrite (G i j (k + 1)) by lia. cbn [obind]. rewrite (G i j (k - 1)) by lia. cbn [obind]. reflexivity.
Qed.
Lemma pot_step mass f p acc : built f -> inside (f_dims f) p -> potential_at cabs mass f p acc = Ret (dadd acc (dmul (dmul (dmul (dq 1 2) mass) (cabs (at_ f p))) (cabs (at_ f p)))).
Proof. intros B I. unfold potential_at. rewrite (get_ok f p B I). reflexivity. Qed.
(** an invariant of the two sums gives an invariant of the energy *)
Lemma energy_inv q t f mass (P : sf -> Prop) : built f -> mass_for q t f = Some mass -> P d0 ->
  (forall acc p i j k, P acc -> In p (inner (f_dims f)) -> p = [i; j; k] -> P (dadd acc (kin_term q mass f i j k))) ->
  (forall acc p, P acc -> inside (f_dims f) p -> P (dadd acc (dmul (dmul (dmul (dq 1 2) mass) (cabs (at_ f p))) (cabs (at_ f p))))) ->
  exists kin pot, calculateTotalEnergy cabs q t f = Ret (dadd kin pot) /\ P kin /\ P pot.
Proof.
  intros B M P0 HK HP. unfold calculateTotalEnergy, getMass. unfold mass_for in M. rewrite M. cbn [obind].
  destruct (for_each_ret (kinetic_at q mass f) P (inner (f_dims f)) d0 P0) as (kin & EK & PK).
  { intros p s I Q. destruct (kin_step q mass f p s B I) as (i & j & k & Ep & E). rewrite E. eexists. split; [reflexivity|]. eapply HK; eauto. }
  rewrite EK. cbn [obind]. destruct (for_each_ret (potential_at cabs mass f) P (positions (f_dims f)) d0 P0) as (pot & EP & PP).
  { intros p s I Q. apply positions_in in I. rewrite (pot_step mass f p s B I). eexists. split; [reflexivity|]. apply HP; assumption. }
  rewrite EP. cbn [obind]. eauto.
Qed.
Lemma energy_ret q t f mass : built f -> mass_for q t f = Some mass -> exists e, calculateTotalEnergy cabs q t f = Ret e.
Proof. intros B M. destruct (energy_inv q t f mass (fun _ => True) B M) as (k & p & E & _); auto. eauto. Qed.
Lemma energy_throw q t f : mass_for q t f = None -> calculateTotalEnergy cabs q t f = Throw E_runtime_error.
Proof. intros M. unfold calculateTotalEnergy, getMass. unfold mass_for in M. rewrite M. reflexivity. Qed.

(** signs *)
Definition sign_ok (x : sf) : Prop := match x with S754_nan => True | S754_zero s | S754_infinity s | S754_finite s _ _ => s = false end.
Definition signed (s : bool) (x : sf) : Prop := match x with S754_nan => True | S754_zero t | S754_infinity t | S754_finite t _ _ => t = s end.
Lemma bra_sign s m e l : signed s (binary_round_aux 53 1024 s m e l).
Proof.
  unfold binary_round_aux. destruct (shr_fexp 53 1024 m e l) as [r1 e1]. destruct (shr_fexp 53 1024 _ e1 loc_Exact) as [r2 e2].
  destruct (shr_m r2); try exact I; try reflexivity. destruct (e2 <=? 1024 - 53); reflexivity.
Qed.
Lemma br_sign s m e : signed s (binary_round 53 1024 s m e).
Proof. unfold binary_round. match goal with |- context [let (_, _) := ?x in _] => destruct x end. apply bra_sign. Qed.
Lemma mul_sign s t x y : signed s x -> signed t y -> signed (xorb s t) (dmul x y).
Proof.
  unfold dmul, SFmul. destruct x as [a|a| |a m e], y as [b|b| |b n f]; cbn [signed]; intros A B; subst; cbn; auto. apply bra_sign.
Qed.
Lemma div_sign s t x y : signed s x -> signed t y -> signed (xorb s t) (ddiv x y).
Proof.
  unfold ddiv, SFdiv. destruct x as [a|a| |a m e], y as [b|b| |b n f]; cbn [signed]; intros A B; subst; cbn; auto.
  destruct (SFdiv_core_binary 53 1024 (Z.pos m) e (Z.pos n) f) as [[mz ez] lz]. apply bra_sign.
Qed.
Lemma add_sign x y : signed false x -> signed false y -> signed false (dadd x y).
Proof.
  unfold dadd, SFadd. destruct x as [a|a| |a m e], y as [b|b| |b n f]; cbn [signed]; intros A B; subst; try exact I; try reflexivity.
  match goal with |- signed _ (binary_normalize _ _ ?z _ _) => set (k := z); assert (K : 0 < k) end.
  { unfold k. cbn [cond_Zopp]. lia. }
  clearbody k. destruct k as [|k|k]; try lia. unfold binary_normalize. apply br_sign.
Qed.
Lemma self_sign x : signed false (dmul x x).
Proof. destruct x as [a|a| |a m e]; cbn; auto; try (destruct a; reflexivity). 
  pose proof (mul_sign a a (S754_finite a m e) (S754_finite a m e) eq_refl eq_refl) as H. rewrite xorb_nilpotent in H. exact H. Qed.
Lemma any_sign x : exists s, signed s x.
Proof. destruct x as [a|a| |a m e]; [exists a|exists a|exists false|exists a]; reflexivity || exact I. Qed.
Lemma norm_sign v : signed false (cnorm v).
Proof. unfold cnorm. apply add_sign; apply self_sign. Qed.
Lemma twice_sign a h : signed false a -> signed false (dmul (dmul a h) h).
Proof. intros A. destruct (any_sign h) as [s H]. pose proof (mul_sign false s a h A H) as B. pose proof (mul_sign _ s _ h B H) as C. destruct s; exact C. Qed.
Lemma half_sign : signed false (dq 1 2). Proof. vm_compute. reflexivity. Qed.
Lemma energy_sign q t f mass : built f -> mass_for q t f = Some mass -> signed false mass -> (forall v, signed false (cabs v)) ->
  exists e, calculateTotalEnergy cabs q t f = Ret e /\ signed false e.
Proof.
  intros B M SM SA. destruct (energy_inv q t f mass (signed false) B M) as (k & p & E & PK & PP).
  - reflexivity.
  - intros acc p i j k PA _ _. apply add_sign; [exact PA|]. unfold kin_term. apply (div_sign false false); [|exact SM]. apply twice_sign. apply (mul_sign false false); [apply norm_sign|apply half_sign].
  - intros acc p PA _. apply add_sign; [exact PA|]. apply (mul_sign false false); [|apply SA]. apply (mul_sign false false); [|apply SA]. apply (mul_sign false false); [apply half_sign|exact SM].
  - exists (dadd k p). split; [exact E|apply add_sign; assumption].
Qed.
(** the empty field *)
Definition is_zero (x : sf) : Prop := exists s, x = S754_zero s.
Lemma zero_mul s y : fin y = true -> is_zero (dmul (S754_zero s) y).
Proof. destruct y; cbn; intros; try discriminate; eexists; reflexivity. Qed.
Lemma mul_zero s y : fin y = true -> is_zero (dmul y (S754_zero s)).
Proof. destruct y; cbn; intros; try discriminate; eexists; reflexivity. Qed.
End Lib.
