(** Proofs about FaultInjector, SEUSimulator and RadiationSimulator. *)
From Coq Require Import List NArith ZArith Bool Arith Lia SpecFloat.
Import ListNotations.
From Verif Require Import Outcome Words Floats Edac_Model Edac_Spec Edac_Proofs Edac2_Proofs Inject_Model Inject_Spec.

(** ** distances *)
Lemma cells_one w : forall n (P : cell -> bool) i, (i < n)%nat -> (forall p, fst p <> i -> P p = false) -> count P (cells w n) = count (fun b => P (i, b)) (seq 0 w).
Proof.
  induction n as [|n IH]; intros P i Hi H; [lia|]. rewrite cells_S, count_app, !count_map. destruct i as [|i].
  - replace (count (fun x => P (down x)) (cells w n)) with 0%N; [lia|]. symmetry. apply count_zero. intros x _. apply H. unfold down. simpl. lia.
  - replace (count (fun x => P (0%nat, x)) (seq 0 w)) with 0%N; [|symmetry; apply count_zero; intros; apply H; simpl; lia].
    rewrite N.add_0_l. rewrite (IH _ i); [reflexivity|lia|]. intros p Hp. apply H. unfold down. simpl. lia.
Qed.
Lemma dist_byte i a b : (i < length a)%nat -> only_byte i a b ->
  distance a b = count (fun k => xorb (N.testbit (nth i a 0%N) (N.of_nat k)) (N.testbit (nth i b 0%N) (N.of_nat k))) (seq 0 8).
Proof.
  intros Hi [_ H]. unfold distance. rewrite (cells_one 8 (length a) _ i Hi); [reflexivity|].
  intros p Hp. unfold bit_at. rewrite H by exact Hp. apply xorb_nilpotent.
Qed.
Lemma update_spec m i f : bytes m -> (i < N.of_nat (length m))%N -> exists m', update m i f = Ret m' /\ bytes m' /\ only_byte (N.to_nat i) m m' /\
  nth (N.to_nat i) m' 0%N = wrap 8 (f (nth (N.to_nat i) m 0%N)).
Proof.
  intros Hb Hi. unfold update. rewrite (proj2 (N.ltb_lt i _) Hi). eexists. split; [reflexivity|]. split; [apply set_at_bytes; [exact Hb|apply wrap_lt]|].
  assert (L : (N.to_nat i < length m)%nat) by lia. split.
  - split; [apply set_at_length|]. intros k Hk. rewrite set_at_nth by exact L. destruct (Nat.eqb_spec k (N.to_nat i)); [contradiction|reflexivity].
  - rewrite set_at_nth by exact L. rewrite Nat.eqb_refl. reflexivity.
Qed.
Lemma count_single (l : list nat) k : NoDup l -> In k l -> count (fun b => (b =? k)%nat) l = 1%N.
Proof.
  induction 1 as [|x l Hx Hl IH]; intros [].
  - subst x. rewrite count_cons, Nat.eqb_refl. replace (count _ l) with 0%N; [reflexivity|]. symmetry. apply count_zero. intros y Hy.
    apply Nat.eqb_neq. intros ->. contradiction.
  - rewrite count_cons, IH by assumption. destruct (Nat.eqb_spec x k) as [->|]; [contradiction|reflexivity].
Qed.
(** a byte xor-ed with a mask *)
Lemma dist_mask x mask : count (fun k => xorb (N.testbit x (N.of_nat k)) (N.testbit (wrap 8 (N.lxor x mask)) (N.of_nat k))) (seq 0 8) =
  count (fun k => N.testbit mask (N.of_nat k)) (seq 0 8).
Proof.
  apply count_ext. intros k Hk. apply in_seq in Hk. rewrite wrap_testbit, N.lxor_spec. rewrite (proj2 (N.ltb_lt _ 8)) by lia. cbn [andb].
  rewrite <- xorb_assoc, xorb_nilpotent. apply xorb_false_l.
Qed.
Lemma mask_one b : (b < 8)%N -> count (fun k => N.testbit (N.shiftl 1 b) (N.of_nat k)) (seq 0 8) = 1%N.
Proof.
  intros Hb. rewrite (count_ext _ (fun k => (k =? N.to_nat b)%nat)).
  - apply count_single; [apply seq_NoDup|]. apply in_seq. lia.
  - intros k _. rewrite shift1_bit. destruct (N.eqb_spec (N.of_nat k) b) as [<-|D].
    + rewrite Nat2N.id, Nat.eqb_refl. reflexivity.
    + symmetry. apply Nat.eqb_neq. lia.
Qed.

(** ** FaultInjector *)
Theorem random_flip m dbyte dbit : bytes m -> (dbyte < N.of_nat (length m))%N -> (dbit < 8)%N ->
  exists m', inject_random_bit_flip m dbyte dbit = Ret m' /\ bytes m' /\ only_byte (N.to_nat dbyte) m m' /\ distance m m' = 1%N /\
    bit_at m' (N.to_nat dbyte, N.to_nat dbit) = negb (bit_at m (N.to_nat dbyte, N.to_nat dbit)).
Proof.
  intros Hb Hi Hd. unfold inject_random_bit_flip, getRandomIndex.
  destruct (update_spec m dbyte (fun x => N.lxor x (N.shiftl 1 dbit)) Hb Hi) as (m' & E & B & O & X).
  exists m'. split; [exact E|]. split; [exact B|]. split; [exact O|]. split.
  - rewrite (dist_byte (N.to_nat dbyte)) by (try exact O; lia). rewrite X, dist_mask. apply mask_one. exact Hd.
  - unfold bit_at. cbn [fst snd]. rewrite X, wrap_testbit, N.lxor_spec, shift1_bit, N2Nat.id, N.eqb_refl. rewrite (proj2 (N.ltb_lt dbit 8) Hd). cbn [andb].
    destruct (N.testbit _ _); reflexivity.
Qed.
Definition mask_of (l : list N) : N := fold_right (fun b acc => N.lxor (N.shiftl 1 b) acc) 0%N l.
Lemma fold_mask l : forall x, wrap 8 (fold_left (fun x b => wrap 8 (N.lxor x (N.shiftl 1 b))) l x) = wrap 8 (N.lxor x (mask_of l)).
Proof.
  induction l as [|b l IH]; intros x; [simpl; rewrite N.lxor_0_r; reflexivity|]. cbn [fold_left mask_of fold_right]. rewrite IH.
  apply N.bits_inj. intros j. rewrite !wrap_testbit, !N.lxor_spec, wrap_testbit, N.lxor_spec. fold (mask_of l).
  destruct (j <? 8)%N; cbn [andb]; [|reflexivity]. rewrite xorb_assoc. reflexivity.
Qed.
Lemma mask_le l : (count (fun k => N.testbit (mask_of l) (N.of_nat k)) (seq 0 8) <= N.of_nat (length l))%N.
Proof.
  rewrite <- (map_length N.to_nat l). apply nodup_count_in; [apply seq_NoDup|]. intros k _. revert k.
  induction l as [|b l IH]; intros k; cbn [mask_of fold_right map]; [rewrite N.bits_0; discriminate|].
  rewrite N.lxor_spec, shift1_bit. fold (mask_of l). destruct (N.eqb_spec (N.of_nat k) b) as [<-|D].
  - intros _. left. apply Nat2N.id.
  - rewrite xorb_false_l. intros H. right. apply IH. exact H.
Qed.
Lemma mask_nodup l : NoDup l -> Forall (fun b => (b < 8)%N) l -> count (fun k => N.testbit (mask_of l) (N.of_nat k)) (seq 0 8) = N.of_nat (length l).
Proof.
  intros Hn Hl.
  assert (T : forall k, N.testbit (mask_of l) k = existsb (N.eqb k) l).
  { clear Hl. intros k. induction Hn as [|b l Hb Hn IH]; [apply N.bits_0|]. cbn [mask_of fold_right existsb]. fold (mask_of l). rewrite N.lxor_spec, shift1_bit, IH.
    destruct (N.eqb_spec k b) as [->|D]; [|destruct (existsb _ l); reflexivity].
    replace (existsb (N.eqb b) l) with false; [reflexivity|]. symmetry. apply not_true_iff_false. intros Q. apply existsb_exists in Q as (y & Hy & Ey). apply N.eqb_eq in Ey. subst. contradiction. }
  rewrite (count_ext _ (fun k => existsb (N.eqb (N.of_nat k)) l)) by (intros; apply T).
  apply N.le_antisymm.
  - rewrite <- (map_length N.to_nat l). apply nodup_count_in; [apply seq_NoDup|]. intros k _ H. apply existsb_exists in H as (y & Hy & Ey). apply N.eqb_eq in Ey. subst y.
    apply in_map_iff. exists (N.of_nat k). split; [apply Nat2N.id|exact Hy].
  - unfold count. assert (Q : (length (map N.to_nat l) <= length (filter (fun k => existsb (N.eqb (N.of_nat k)) l) (seq 0 8)))%nat).
    { apply NoDup_incl_length.
      - apply FinFun.Injective_map_NoDup; [intros a b; lia|exact Hn].
      - intros k Hk. apply in_map_iff in Hk as (b & <- & Hb). apply filter_In. rewrite Forall_forall in Hl. specialize (Hl _ Hb). split; [apply in_seq; lia|].
        apply existsb_exists. exists b. split; [exact Hb|]. rewrite N2Nat.id. apply N.eqb_refl. }
    rewrite map_length in Q. lia.
Qed.
Theorem fj_effect t m dbyte dbits dnum dval : bytes m -> (dbyte < N.of_nat (length m))%N -> (dnum < 3)%N -> (N.to_nat (dnum + 2) <= length dbits)%nat ->
  Forall (fun b => (b < 8)%N) dbits -> (dval < 256)%N ->
  exists m', fj_inject t m dbyte dbits dnum dval = Ret m' /\ bytes m' /\ only_byte (N.to_nat dbyte) m m' /\
    match t with
    | SingleBitFlip => distance m m' = 1%N
    | MultiBitFlip => (distance m m' <= 4)%N /\ (NoDup (firstn (N.to_nat (dnum + 2)) dbits) -> distance m m' = (dnum + 2)%N)
    | StuckAtZero => nth (N.to_nat dbyte) m' 1%N = 0%N
    | StuckAtOne => nth (N.to_nat dbyte) m' 0%N = 255%N
    | RandomValue => nth (N.to_nat dbyte) m' 0%N = dval
    end.
Proof.
  intros Hb Hi Hn Hlen Hd Hv. unfold fj_inject, getRandomIndex.
  match goal with |- context [update m dbyte ?f] => destruct (update_spec m dbyte f Hb Hi) as (m' & E & B & O & X) end.
  exists m'. split; [exact E|]. split; [exact B|]. split; [exact O|].
  assert (Li : (N.to_nat dbyte < length m)%nat) by lia.
  assert (Lm : length m' = length m) by apply O.
  destruct t.
  - rewrite (dist_byte _ _ _ Li O), X. destruct dbits as [|b ds]; [cbn [length] in Hlen; lia|]. cbn [firstn fold_left]. inversion Hd; subst.
    rewrite dist_mask. apply mask_one. assumption.
  - rewrite (dist_byte _ _ _ Li O), X, fold_mask, dist_mask. set (l := firstn (N.to_nat (dnum + 2)) dbits).
    assert (Ll : length l = N.to_nat (dnum + 2)) by (apply firstn_length_le; exact Hlen). split.
    + pose proof (mask_le l). lia.
    + intros Nd. rewrite mask_nodup; [lia|exact Nd|]. apply Forall_forall. intros x Hx. rewrite Forall_forall in Hd. apply Hd.
      rewrite <- (firstn_skipn (N.to_nat (dnum + 2)) dbits). apply in_or_app. left. exact Hx.
  - rewrite (nth_indep _ 1%N 0%N) by lia. exact X.
  - exact X.
  - rewrite X. apply wrap_small. exact Hv.
Qed.
Lemma fj_empty t dbyte dbits dnum dval : fj_inject t [] dbyte dbits dnum dval = UB UB_out_of_bounds.
Proof. unfold fj_inject, update. destruct (getRandomIndex _ dbyte); reflexivity. Qed.

(** ** testResilience *)
Lemma iter_r {A} (f : A -> A) n x : Nat.iter (Datatypes.S n) f x = Nat.iter n f (f x).
Proof. induction n as [|n IH]; [reflexivity|]. cbn [Nat.iter nat_rect] in *. unfold Nat.iter in *. cbn [nat_rect] in *. rewrite IH. reflexivity. Qed.
Lemma trials_iter {S} (inject : S -> S) verify repair : forall n s det cor, exists l s', trials inject verify repair s l s' /\ length l = n /\
  Nat.iter n (trial inject verify repair) (s, (det, cor)) = (s', (det + Z.of_N (count was_detected l), cor + Z.of_N (count was_corrected l)))%Z.
Proof.
  induction n as [|n IH]; intros s det cor.
  - exists [], s. split; [constructor|]. split; [reflexivity|]. simpl. rewrite !Z.add_0_r. reflexivity.
  - rewrite iter_r. unfold trial at 2. destruct (verify (inject s)) as [s1 ok] eqn:E1. destruct ok.
    + destruct (IH s1 det cor) as (l & s' & T & L & E). exists (None :: l), s'. split; [eapply undetected; eassumption|]. split; [simpl; lia|].
      rewrite E, !count_cons. reflexivity.
    + destruct (verify (repair s1)) as [s2 r] eqn:E2. destruct (IH s2 (det + 1)%Z (if r then cor + 1 else cor)%Z) as (l & s' & T & L & E).
      exists (Some r :: l), s'. split; [eapply detected_; eassumption|]. split; [simpl; lia|]. rewrite E, !count_cons. cbn [was_detected was_corrected].
      f_equal. f_equal; [|destruct r]; lia.
Qed.
Lemma corrected_le l : (count was_corrected l <= count was_detected l)%N.
Proof. induction l as [|x l IH]; [reflexivity|]. rewrite !count_cons. destruct x as [[|]|]; cbn [was_corrected was_detected]; lia. Qed.
Theorem resilience {S} (inject : S -> S) verify repair n s :
  exists l s' r, test_resilience inject verify repair n s = (s', r) /\ trials inject verify repair s l s' /\ Z.of_nat (length l) = Z.max n 0 /\
    rdet r = Z.of_N (count was_detected l) /\ rcor r = Z.of_N (count was_corrected l) /\ (0 <= rcor r <= rdet r)%Z /\ (rdet r <= Z.max n 0)%Z /\
    (rdetected r = true <-> (0 < rdet r)%Z) /\ (rcorrected r = true <-> (0 < rcor r)%Z).
Proof.
  destruct (trials_iter inject verify repair (Z.to_nat n) s 0%Z 0%Z) as (l & s' & T & L & E). unfold test_resilience. rewrite E, !Z.add_0_l.
  exists l, s'. eexists. split; [reflexivity|]. cbn [rdet rcor rdetected rcorrected]. pose proof (corrected_le l). pose proof (count_le was_detected l).
  split; [exact T|]. split; [lia|]. split; [reflexivity|]. split; [reflexivity|]. split; [lia|]. split; [lia|]. split; apply Z.ltb_lt.
Qed.
(** a repair that works corrects whatever is detected; a check that catches every fault detects all *)
Theorem resilience_good {S} (inject : S -> S) verify repair n s s' r :
  (forall x, snd (verify (repair x)) = true) -> (forall x, snd (verify (inject x)) = false) -> test_resilience inject verify repair n s = (s', r) ->
  rdet r = Z.max n 0 /\ rcor r = Z.max n 0.
Proof.
  intros Hr Hi E. destruct (resilience inject verify repair n s) as (l & s2 & r2 & E2 & T & L & D & C & _). rewrite E in E2. injection E2 as <- <-.
  assert (Q : Forall (fun o => o = Some true) l).
  { clear - T Hr Hi. induction T as [|s s1 l s2 V T IH|s s1 s2 b l s3 V V2 T IH]; constructor; auto.
    - specialize (Hi s). rewrite V in Hi. discriminate.
    - specialize (Hr s1). rewrite V2 in Hr. simpl in Hr. subst. reflexivity. }
  assert (W : count was_detected l = N.of_nat (length l) /\ count was_corrected l = N.of_nat (length l)).
  { clear - Q. induction Q as [|x l -> Q [IH1 IH2]]; [split; reflexivity|]. rewrite !count_cons, IH1, IH2. cbn [was_detected was_corrected length]. lia. }
  lia.
Qed.

(** ** SEUSimulator *)
Lemma flips_strikes ds : forall m, fold_left (fun m d => flip_at m (fst d) (snd d)) ds m = strikes_on (as_cells ds) m.
Proof.
  induction ds as [|[a b] ds IH]; intros m; [reflexivity|]. cbn [fold_left fst snd as_cells map]. rewrite IH. unfold strikes_on. cbn [fold_left fst snd].
  rewrite !N2Nat.id. reflexivity.
Qed.
Lemma odd_xor (c : cell) (f : cell -> bool) l : NoDup l -> In c l -> N.odd (count (fun p => xorb (cell_eqb p c) (f p)) l) = negb (N.odd (count f l)).
Proof.
  assert (H0 : forall l, ~ In c l -> count (fun p => xorb (cell_eqb p c) (f p)) l = count f l).
  { intros k Hk. apply count_ext. intros p Hp. replace (cell_eqb p c) with false; [apply xorb_false_l|]. symmetry. apply not_true_iff_false. intros E.
    apply cell_eqb_eq in E. subst. contradiction. }
  induction 1 as [|x l Hx Hl IH]; intros [].
  - subst x. rewrite !count_cons, H0 by exact Hx. rewrite (proj2 (cell_eqb_eq c c) eq_refl). rewrite !N.odd_add. destruct (f c); simpl; destruct (N.odd (count f l)); reflexivity.
  - rewrite !count_cons, !N.odd_add, IH by assumption. replace (cell_eqb x c) with false; [rewrite xorb_false_l; destruct (f x); simpl; destruct (N.odd (count f l)); reflexivity|].
    symmetry. apply not_true_iff_false. intros E. apply cell_eqb_eq in E. subst. contradiction.
Qed.
Lemma inverted_parity n l : Forall (in_range n) l -> N.odd (count (inverted l) (cells 8 n)) = Nat.odd (length l).
Proof.
  induction 1 as [|c l [H1 H2] Hl IH].
  - replace (count (inverted []) (cells 8 n)) with 0%N; [reflexivity|]. symmetry. apply count_zero. reflexivity.
  - rewrite (count_ext _ (fun p => xorb (cell_eqb p c) (inverted l p))) by (intros; apply inverted_cons).
    rewrite odd_xor; [|apply cells_nodup|apply cells_in; split; assumption]. rewrite IH. cbn [length]. rewrite Nat.odd_succ, <- Nat.negb_odd. reflexivity.
Qed.
Lemma dist_strikes l m : bytes m -> Forall (in_range (length m)) l -> distance m (strikes_on l m) = count (inverted l) (cells 8 (length m)).
Proof.
  intros Hb Hl. apply count_ext. intros p _. rewrite strikes_on_bit by assumption. rewrite <- xorb_assoc, xorb_nilpotent. apply xorb_false_l.
Qed.
Lemma dist_le l m : bytes m -> Forall (in_range (length m)) l -> (distance m (strikes_on l m) <= N.of_nat (length l))%N.
Proof.
  intros Hb Hl. rewrite dist_strikes by assumption. apply nodup_count_in; [apply cells_nodup|]. intros p _. apply inverted_in.
Qed.
Lemma cells_range n ds : legal_flips n ds -> Forall (in_range n) (as_cells ds).
Proof.
  intros H. unfold as_cells. apply Forall_forall. intros c Hc. apply in_map_iff in Hc as (d & <- & Hd). unfold legal_flips in H. rewrite Forall_forall in H.
  specialize (H _ Hd). split; cbn [fst snd]; lia.
Qed.
Lemma firstn_forall {A} (P : A -> Prop) n l : Forall P l -> Forall P (firstn n l).
Proof. rewrite !Forall_forall. intros H x Hx. apply H. rewrite <- (firstn_skipn n l). apply in_or_app. left. exact Hx. Qed.
Theorem seu_flips e m dur num ds m' r : bytes m -> legal_flips (length m) ds -> (N.to_nat num <= length ds)%nat -> m <> [] ->
  inject_bit_flips (Some e) (Some m) dur num ds = Ret (m', r) ->
  r = num /\ exists m2, m' = Some m2 /\ length m2 = length m /\ bytes m2 /\
    (forall p, bit_at m2 p = xorb (bit_at m p) (inverted (as_cells (firstn (N.to_nat num) ds)) p)) /\
    (distance m m2 <= num)%N /\ N.odd (distance m m2) = N.odd num.
Proof.
  intros Hb Hl Hn Hm H. destruct e as [fl cr]. unfold inject_bit_flips in H.
  replace (N.of_nat (length m) =? 0)%N with false in H by (symmetry; apply N.eqb_neq; destruct m; [contradiction|simpl; lia]).
  destruct (flt _ _) in H; [|discriminate H]. injection H as <- <-. split; [reflexivity|]. rewrite flips_strikes.
  set (l := as_cells (firstn (N.to_nat num) ds)).
  assert (R : Forall (in_range (length m)) l) by (apply cells_range; apply firstn_forall; exact Hl).
  assert (L : length l = N.to_nat num) by (unfold l, as_cells; rewrite map_length; apply firstn_length_le; exact Hn).
  eexists. split; [reflexivity|]. split; [apply strikes_on_length|]. split; [apply strikes_on_bytes; exact Hb|].
  split; [intros p; apply strikes_on_bit; assumption|]. split.
  - pose proof (dist_le l m Hb R). lia.
  - rewrite dist_strikes, inverted_parity by assumption. rewrite L. rewrite <- (N2Nat.id num) at 2.
    generalize (N.to_nat num). intros k. induction k as [|k IH]; [reflexivity|]. rewrite Nat2N.inj_succ, N.odd_succ, <- N.negb_odd, Nat.odd_succ, <- Nat.negb_odd, IH. reflexivity.
Qed.
Lemma seu_nothing env mem dur num ds : env = None \/ mem = None \/ mem = Some [] -> inject_bit_flips env mem dur num ds = Ret (mem, 0%N).
Proof. intros [->|[->| ->]]; [reflexivity|destruct env as [[? ?]|]; reflexivity|destruct env as [[? ?]|]; reflexivity]. Qed.
Lemma mul_zero x : flt (S754_zero false) (smul x (S754_zero false)) = false.
Proof. destruct x as [[|]|[|]| |[|] ? ?]; reflexivity. Qed.
Theorem seu_no_time e m num ds : m <> [] -> inject_bit_flips (Some e) (Some m) 0 num ds = UB UB_bad_iterator.
Proof.
  intros Hm. destruct e as [fl cr]. unfold inject_bit_flips.
  replace (N.of_nat (length m) =? 0)%N with false by (symmetry; apply N.eqb_neq; destruct m; [contradiction|simpl; lia]).
  unfold expected_seus. change (sdiv (sofZ (Z.of_N 0)) (sofZ 1000)) with (S754_zero false). rewrite mul_zero. reflexivity.
Qed.
Theorem multi_cancel m dbyte b dval : bytes m -> (dbyte < N.of_nat (length m))%N -> (b < 8)%N -> fj_inject MultiBitFlip m dbyte [b; b] 0 dval = Ret m.
Proof.
  intros Hb Hi Hk. unfold fj_inject, getRandomIndex.
  match goal with |- update m dbyte ?f = _ => destruct (update_spec m dbyte f Hb Hi) as (m' & E & B & O & X) end.
  rewrite E. f_equal. destruct O as [L O]. apply (nth_ext _ _ 0%N 0%N L). intros k Hk2. destruct (Nat.eq_dec k (N.to_nat dbyte)) as [->|D]; [|apply O; exact D].
  rewrite X. change (firstn (N.to_nat (0 + 2)) [b; b]) with [b; b]. rewrite fold_mask. cbn [mask_of fold_right]. rewrite N.lxor_0_r, N.lxor_nilpotent, N.lxor_0_r.
  apply wrap_small. apply nth_byte. exact Hb.
Qed.
