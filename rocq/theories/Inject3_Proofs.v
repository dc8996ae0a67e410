(** Proofs about SEUSimulator::simulateSEUs and RadiationSimulator. *)
From Coq Require Import List NArith ZArith Bool Arith Lia SpecFloat.
Import ListNotations.
From Verif Require Import Outcome Words Floats Edac_Model Edac_Spec Edac_Proofs Edac2_Proofs Inject_Model Inject_Spec Inject2_Proofs.

Lemma seus_gen env dur : forall regions draws i total regions' tot log, length draws = length regions -> (total < 2 ^ 32)%N ->
  simulate_seus env regions dur draws i total = Ret (regions', tot, log) ->
  exists counts, length counts = length regions /\ length regions' = length regions /\
    (forall k, (k < length regions)%nat -> inject_bit_flips env (nth k regions None) dur (fst (nth k draws (0%N, []))) (snd (nth k draws (0%N, []))) =
       Ret (nth k regions' None, nth k counts 0%N)) /\
    tot = ((total + sumN counts) mod 2 ^ 32)%N /\ log = filter (fun p => (0 <? snd p)%N) (combine (seq i (length regions)) counts).
Proof.
  induction regions as [|m ms IH]; intros draws i total regions' tot log L Ht H.
  - destruct draws; [|discriminate L]. injection H as <- <- <-. exists []. split; [reflexivity|]. split; [reflexivity|]. split; [intros k Hk; simpl in Hk; lia|].
    split; [|reflexivity]. simpl sumN. rewrite N.add_0_r, N.mod_small by exact Ht. reflexivity.
  - destruct draws as [|[num ds] draws]; [discriminate L|]. cbn [simulate_seus] in H.
    destruct (inject_bit_flips env m dur num ds) as [[m' seus]|r|e|] eqn:E; [|discriminate H|discriminate H|discriminate H].
    destruct (simulate_seus env ms dur draws (S i) (wrap 32 (total + seus))) as [[[ms' tot'] log']|r|e|] eqn:E2; [|discriminate H|discriminate H|discriminate H].
    injection H as <- <- <-. cbn [length] in L. destruct (IH _ _ _ _ _ _ (eq_add_S _ _ L) (wrap_lt 32 _) E2) as (cs & L1 & L2 & K & T & G).
    exists (seus :: cs). split; [simpl; lia|]. split; [simpl; lia|]. split.
    + intros [|k] Hk; [exact E|]. cbn [nth]. apply K. simpl in Hk. lia.
    + split.
      * rewrite T. cbn [sumN]. unfold wrap. rewrite N.add_mod_idemp_l by (apply N.pow_nonzero; discriminate). f_equal. lia.
      * cbn [length seq combine filter snd]. rewrite G. destruct (0 <? seus)%N; reflexivity.
Qed.
Theorem seus_all env dur regions draws regions' tot log : length draws = length regions ->
  simulate_seus env regions dur draws 0 0 = Ret (regions', tot, log) ->
  exists counts, length counts = length regions /\ length regions' = length regions /\
    (forall k, (k < length regions)%nat -> inject_bit_flips env (nth k regions None) dur (fst (nth k draws (0%N, []))) (snd (nth k draws (0%N, []))) =
       Ret (nth k regions' None, nth k counts 0%N)) /\
    tot = (sumN counts mod 2 ^ 32)%N /\ log = filter (fun p => (0 <? snd p)%N) (combine (seq 0 (length regions)) counts).
Proof. intros L H. destruct (seus_gen env dur regions draws 0 0 regions' tot log L eq_refl H) as (cs & R). exists cs. rewrite N.add_0_l in R. exact R. Qed.

(** ** RadiationSimulator *)
Lemma for_up_S {S} n i (f : N -> S -> S) s : for_up (Datatypes.S n) i f s = for_up n (i + 1) f (f i s).
Proof. reflexivity. Qed.
Lemma multi_bit start : forall n i mask j, N.testbit (for_up n i (fun i mask => N.lor mask (N.shiftl 1 (start + i))) mask) j =
  N.testbit mask j || ((start + i <=? j)%N && (j <? start + i + N.of_nat n)%N).
Proof.
  induction n as [|n IH]; intros i mask j.
  - cbn [for_up]. destruct (N.leb_spec (start + i) j), (N.ltb_spec j (start + i + N.of_nat 0)); try lia; rewrite ?andb_false_r, ?orb_false_r; cbn [andb]; rewrite ?orb_false_r; reflexivity.
  - rewrite for_up_S, IH, N.lor_spec, shift1_bit. rewrite <- orb_assoc. f_equal. 
    destruct (N.eqb_spec j (start + i)), (N.leb_spec (start + (i + 1)) j), (N.ltb_spec j (start + (i + 1) + N.of_nat n)), (N.leb_spec (start + i) j), (N.ltb_spec j (start + i + N.of_nat (S n)));
      try reflexivity; lia.
Qed.
Lemma count_run a n : (a + n <= 8)%nat -> count (fun k => (a <=? k)%nat && (k <? a + n)%nat) (seq 0 8) = N.of_nat n.
Proof. intros H. do 9 (destruct a as [|a]; [do 9 (destruct n as [|n]; [first [reflexivity|lia]|]); lia|]). lia. Qed.
Lemma latch_dist x y b : (b < 8)%N -> (forall k, k <> b -> N.testbit y k = N.testbit x k) ->
  (count (fun k => xorb (N.testbit x (N.of_nat k)) (N.testbit y (N.of_nat k))) (seq 0 8) <= 1)%N.
Proof.
  intros Hb H. apply (nodup_count_in _ _ [N.to_nat b]); [apply seq_NoDup|]. intros k _ X. left.
  destruct (N.eq_dec (N.of_nat k) b) as [<-|D]; [apply Nat2N.id|]. rewrite H in X by exact D. rewrite xorb_nilpotent in X. discriminate.
Qed.
Theorem event_effect r m d : bytes m -> legal_rs (length m) d ->
  exists m' e, generate_event r m d = Ret (m', e) /\ bytes m' /\ only_byte (N.to_nat (dloc d)) m m' /\ eoffset e = dloc d /\
    etype e = event_kind r (dvalue d) /\ effect_ok (etype e) d m m' /\ (distance m m' <= ebits e)%N /\ (1 <= ebits e <= 8)%N.
Proof.
  intros Hb (Hl & Hbit & Hnum & Hst & Hby). unfold generate_event. set (k := event_kind r (dvalue d)).
  match goal with |- context [update m (dloc d) ?f] => destruct (update_spec m (dloc d) f Hb Hl) as (m' & E & B & O & X) end.
  rewrite E. exists m'. eexists. split; [reflexivity|]. split; [exact B|]. split; [exact O|].
  assert (Li : (N.to_nat (dloc d) < length m)%nat) by lia.
  pose proof (dist_byte _ _ _ Li O) as D. unfold effect_ok, bit_at. cbn [fst snd].
  destruct k; cbn [etype eoffset ebits]; (split; [reflexivity|]); (split; [reflexivity|]).
  - rewrite X, dist_mask, mask_one in D by exact Hbit. rewrite D. split; [split; [reflexivity|]|split; [lia|lia]].
    rewrite X, wrap_testbit, N.lxor_spec, shift1_bit, N2Nat.id, N.eqb_refl, (proj2 (N.ltb_lt _ 8) Hbit). cbn [andb]. destruct (N.testbit _ _); reflexivity.
  - assert (D2 : distance m m' = dnum d).
    { rewrite D, X, dist_mask. rewrite (count_ext _ (fun k => (N.to_nat (dstart d) <=? k)%nat && (k <? N.to_nat (dstart d) + N.to_nat (dnum d))%nat)).
      - rewrite count_run by lia. apply N2Nat.id.
      - intros k _. rewrite multi_bit, N.bits_0. cbn [orb].
        destruct (N.leb_spec (dstart d + 0) (N.of_nat k)), (N.ltb_spec (N.of_nat k) (dstart d + 0 + N.of_nat (N.to_nat (dnum d)))),
          (Nat.leb_spec (N.to_nat (dstart d)) k), (Nat.ltb_spec k (N.to_nat (dstart d) + N.to_nat (dnum d))); try reflexivity; lia. }
    rewrite D2. split; [split; [reflexivity|]|split; lia]. intros b Hk. rewrite X, wrap_testbit, N.lxor_spec, multi_bit, N.bits_0. cbn [orb].
    rewrite (proj2 (N.ltb_lt _ 8)) by lia. rewrite (proj2 (N.leb_le _ _)) by lia. rewrite (proj2 (N.ltb_lt (N.of_nat b) _)) by lia. cbn [andb].
    destruct (N.testbit _ _); reflexivity.
  - assert (D2 : (distance m m' <= 1)%N).
    { rewrite D. rewrite X. rewrite (count_ext _ (fun k => xorb (N.testbit (nth (N.to_nat (dloc d)) m 0%N) (N.of_nat k)) (N.testbit
        (if dstuck d then N.lor (nth (N.to_nat (dloc d)) m 0%N) (N.shiftl 1 (dbit d)) else N.ldiff (nth (N.to_nat (dloc d)) m 0%N) (N.shiftl 1 (dbit d))) (N.of_nat k)))).
      - apply (latch_dist _ _ (dbit d) Hbit). intros k Hk.
        destruct (dstuck d); [rewrite N.lor_spec|rewrite N.ldiff_spec]; rewrite shift1_bit, (proj2 (N.eqb_neq k (dbit d)) Hk); [apply orb_false_r|apply andb_true_r].
      - intros k Hk. apply in_seq in Hk. rewrite wrap_testbit, (proj2 (N.ltb_lt _ 8)) by lia. reflexivity. }
    split; [split; [exact D2|]|split; [exact D2|lia]]. rewrite X, wrap_testbit, N2Nat.id, (proj2 (N.ltb_lt _ 8) Hbit). cbn [andb].
    destruct (dstuck d); [rewrite N.lor_spec|rewrite N.ldiff_spec]; rewrite shift1_bit, N.eqb_refl; [apply orb_true_r|apply andb_false_r].
  - split; [rewrite X; apply wrap_small; exact Hby|]. split; [|lia]. rewrite D. rewrite count_le. reflexivity.
Qed.

(** a run of events *)
Lemma dist_tri a b c : length b = length a -> (distance a c <= distance a b + distance b c)%N.
Proof.
  intros L. unfold distance. rewrite L. induction (cells 8 (length a)) as [|p l IH]; [reflexivity|]. rewrite !count_cons.
  destruct (bit_at a p), (bit_at b p), (bit_at c p); cbn [xorb]; lia.
Qed.
Lemma dist_refl a : distance a a = 0%N.
Proof. apply count_zero. intros p _. apply xorb_nilpotent. Qed.
Theorem effects r : forall ds m, bytes m -> Forall (legal_rs (length m)) ds ->
  exists m' es, simulate_effects r m ds = Ret (m', es) /\ bytes m' /\ length m' = length m /\
    map eoffset es = map dloc ds /\ map etype es = map (fun d => event_kind r (dvalue d)) ds /\
    (forall k, ~ In (N.of_nat k) (map eoffset es) -> nth k m' 0%N = nth k m 0%N) /\ (distance m m' <= sumN (map ebits es))%N.
Proof.
  induction ds as [|d ds IH]; intros m Hb Hl.
  - exists m, []. split; [reflexivity|]. split; [exact Hb|]. repeat split. rewrite dist_refl. reflexivity.
  - inversion Hl as [|? ? H1 H2]; subst. destruct (event_effect r m d Hb H1) as (m1 & e & E & B & O & Off & T & _ & D & _).
    assert (L1 : length m1 = length m) by apply O. cbn [simulate_effects]. rewrite E.
    destruct (IH m1 B) as (m2 & es & E2 & B2 & L2 & O2 & T2 & U & D2); [rewrite L1; exact H2|]. rewrite E2.
    exists m2, (e :: es). split; [reflexivity|]. split; [exact B2|]. split; [lia|]. cbn [map]. rewrite O2, T2, Off, T.
    split; [reflexivity|]. split; [reflexivity|]. split.
    + intros k Hk. rewrite <- O2 in Hk. rewrite U; [|intros Q; apply Hk; right; exact Q]. apply O. intros ->. apply Hk. left. symmetry. apply N2Nat.id.
    + pose proof (dist_tri m m1 m2 L1). cbn [sumN]. lia.
Qed.
Lemma mul_zero_d x : flt (S754_zero false) (dmul x (S754_zero false)) = false.
Proof. destruct x as [[|]|[|]| |[|] ? ?]; reflexivity. Qed.
Theorem no_time r m ds : simulate r m 0 ds = UB UB_bad_iterator.
Proof. unfold simulate. change (ddiv (dofZ 0) (dofZ 1000)) with (S754_zero false). rewrite mul_zero_d. reflexivity. Qed.
