(** C124-C138: the fault injectors.  Sources in Inject_Model.v, vocabulary in Inject_Spec.v. *)
From Coq Require Import String List NArith ZArith Bool Arith Lia SpecFloat Reals.
Import ListNotations.
From Verif Require Import Outcome Words Floats FloatsR HealthFloat Edac_Model Edac_Spec Inject_Model Inject_Spec Inject_Proofs Inject2_Proofs Inject3_Proofs Inject4_Proofs.
Local Open Scope Z_scope.

Definition draws0 : fi_draw := mkFD 3 2 0 (repeat 7 20).

(** C124: the positions *)
Theorem C124_positions : forall p w start d, p <> BURST_ERROR -> 8 <= w -> legal_fi w d ->
  exists l, get_bits_to_flip p w start d = Ret l /\ NoDup l /\ forall j, In j l <-> 0 <= j < w /\ affected p w (target w start (fstart d)) (fadj d) j = true.
Proof. exact bits_spec. Qed.
Print Assumptions C124_positions.
Theorem C124_burst : forall w start d, 8 <= w -> legal_fi w d ->
  exists l, get_bits_to_flip BURST_ERROR w start d = Ret l /\ (5 <= length l <= 14)%nat /\ forall j, In j l -> 0 <= j < w.
Proof. exact burst_spec. Qed.
Print Assumptions C124_burst.
Example C124_nonvacuous : legal_fi 32 draws0 /\ get_bits_to_flip ADJACENT_BITS 32 31 draws0 = Ret [31; 0] /\
  get_bits_to_flip ROW_COLUMN 16 3 draws0 = Ret [0; 1; 2; 3; 4; 5; 6; 7; 11].
Proof. split; [unfold legal_fi; simpl; lia|]. split; vm_compute; reflexivity. Qed.

(** C125: injectFault into a type of 64 bits (or a multiple) *)
Theorem C125_flips : forall p w v pos dpos d, flips p = true -> 0 < w -> w mod 64 = 0 -> (v < 2 ^ Z.to_N w)%N -> (pos < 0 -> 0 <= dpos < w) -> legal_fi w d ->
  exists v', inject_fault p w v pos dpos d = Ret v' /\ (v' < 2 ^ Z.to_N w)%N /\
    forall j, 0 <= j < w -> bit v' j = xorb (bit v j) (affected p w (target w pos dpos) (fadj d) j).
Proof. exact inject_flip. Qed.
Print Assumptions C125_flips.
Theorem C125_stuck : forall (b : bool) w v pos dpos d, 0 < w -> w mod 64 = 0 -> (v < 2 ^ Z.to_N w)%N -> (pos < 0 -> 0 <= dpos < w) -> legal_fi w d ->
  exists v', inject_fault (if b then STUCK_AT_ONE else STUCK_AT_ZERO) w v pos dpos d = Ret v' /\ (v' < 2 ^ Z.to_N w)%N /\
    forall j, 0 <= j < w -> bit v' j = if j =? target w pos dpos then b else bit v j.
Proof. exact inject_stuck. Qed.
Print Assumptions C125_stuck.
Example C125_nonvacuous : legal_fi 64 draws0 /\ inject_fault BYTE_ERROR 64 5 12 0 draws0 = Ret 65285%N /\ inject_fault STUCK_AT_ONE 64 5 100 0 draws0 = Ret (2 ^ 63 + 5)%N.
Proof. split; [unfold legal_fi; simpl; lia|]. split; vm_compute; reflexivity. Qed.

(** C126: any type *)
Theorem C126_defined_partial : forall p w v pos dpos d, 0 < w -> w mod 64 = 0 -> legal_fi w d -> exists v', inject_fault p w v pos dpos d = Ret v'.
Proof. exact inject_defined. Qed.
Print Assumptions C126_defined_partial.
Theorem C126_small_types_refuted : forall p w v pos dpos d, w = 8 \/ w = 16 \/ w = 32 -> inject_fault p w v pos dpos d = UB UB_out_of_bounds.
Proof. intros p w v pos dpos d H. apply inject_small. destruct H as [->|[->| ->]]; discriminate. Qed.
Print Assumptions C126_small_types_refuted.
Example C126_nonvacuous : exists v', inject_fault BURST_ERROR 64 5 12 0 draws0 = Ret v'.
Proof. exists (fold_left (apply_bit BURST_ERROR 64) [7; 7; 7; 7; 7]%Z 5%N). vm_compute. reflexivity. Qed.

(** C127: the fault changes the value *)
Theorem C127_changes_partial : forall p w v pos dpos d v1, flips p = true -> 0 < w -> w mod 64 = 0 -> (v < 2 ^ Z.to_N w)%N -> (pos < 0 -> 0 <= dpos < w) -> legal_fi w d ->
  inject_fault p w v pos dpos d = Ret v1 -> v1 <> v.
Proof.
  intros p w v pos dpos d v1 H1 H2 H3 H4 H5 H6 E. destruct (inject_defined p w v1 pos dpos d H2 H3 H6) as [v2 E2].
  exact (proj2 (inject_twice p w v pos dpos d v1 v2 H1 H2 H3 H4 H5 H6 E E2)).
Qed.
Print Assumptions C127_changes_partial.
Theorem C127_unchanged_refuted :
  (exists d, legal_fi 64 d /\ inject_fault BURST_ERROR 64 5 12 0 d = Ret 5%N) /\
  inject_fault STUCK_AT_ONE 64 5 2 0 draws0 = Ret 5%N /\ inject_fault STUCK_AT_ZERO 64 5 1 0 draws0 = Ret 5%N.
Proof.
  split; [exists (mkFD 3 2 1 (repeat 7 20)); split; [unfold legal_fi; simpl; lia|vm_compute; reflexivity]|]. split; vm_compute; reflexivity.
Qed.
Print Assumptions C127_unchanged_refuted.
Example C127_nonvacuous : inject_fault WORD_ERROR 64 5 40 0 draws0 = Ret 18446744069414584325%N.
Proof. vm_compute. reflexivity. Qed.

(** C128 *)
Theorem C128_twice : forall p w v pos dpos d v1 v2, flips p = true -> 0 < w -> w mod 64 = 0 -> (v < 2 ^ Z.to_N w)%N -> (pos < 0 -> 0 <= dpos < w) -> legal_fi w d ->
  inject_fault p w v pos dpos d = Ret v1 -> inject_fault p w v1 pos dpos d = Ret v2 -> v2 = v /\ v1 <> v.
Proof. exact inject_twice. Qed.
Print Assumptions C128_twice.
Example C128_nonvacuous : inject_fault ROW_COLUMN 64 5 3 0 draws0 = Ret 578721382704613626%N /\ inject_fault ROW_COLUMN 64 578721382704613626 3 0 draws0 = Ret 5%N.
Proof. split; vm_compute; reflexivity. Qed.

Local Open Scope N_scope.
(** C129: FaultInjector *)
Theorem C129_random_bit_flip : forall m dbyte dbit, bytes m -> dbyte < N.of_nat (length m) -> dbit < 8 ->
  exists m', inject_random_bit_flip m dbyte dbit = Ret m' /\ bytes m' /\ only_byte (N.to_nat dbyte) m m' /\ distance m m' = 1 /\
    bit_at m' (N.to_nat dbyte, N.to_nat dbit) = negb (bit_at m (N.to_nat dbyte, N.to_nat dbit)).
Proof. exact random_flip. Qed.
Print Assumptions C129_random_bit_flip.
Theorem C129_inject : forall t m dbyte dbits dnum dval, bytes m -> dbyte < N.of_nat (length m) -> dnum < 3 -> (N.to_nat (dnum + 2) <= length dbits)%nat ->
  Forall (fun b => b < 8) dbits -> dval < 256 ->
  exists m', fj_inject t m dbyte dbits dnum dval = Ret m' /\ bytes m' /\ only_byte (N.to_nat dbyte) m m' /\
    match t with
    | SingleBitFlip => distance m m' = 1
    | MultiBitFlip => distance m m' <= 4 /\ (NoDup (firstn (N.to_nat (dnum + 2)) dbits) -> distance m m' = dnum + 2)
    | StuckAtZero => nth (N.to_nat dbyte) m' 1 = 0
    | StuckAtOne => nth (N.to_nat dbyte) m' 0 = 255
    | RandomValue => nth (N.to_nat dbyte) m' 0 = dval
    end.
Proof. exact fj_effect. Qed.
Print Assumptions C129_inject.
Example C129_nonvacuous : fj_inject MultiBitFlip [1; 2; 3] 1 [0; 7; 3; 3] 1 0 = Ret [1; 139; 3].
Proof. vm_compute. reflexivity. Qed.

(** C130: a multi-bit fault flips two to four bits *)
Theorem C130_distinct_partial : forall m dbyte dbits dnum dval, bytes m -> dbyte < N.of_nat (length m) -> dnum < 3 -> (N.to_nat (dnum + 2) <= length dbits)%nat ->
  Forall (fun b => b < 8) dbits -> dval < 256 -> NoDup (firstn (N.to_nat (dnum + 2)) dbits) ->
  exists m', fj_inject MultiBitFlip m dbyte dbits dnum dval = Ret m' /\ 2 <= distance m m' <= 4.
Proof.
  intros m dbyte dbits dnum dval H1 H2 H3 H4 H5 H6 H7. destruct (fj_effect MultiBitFlip m dbyte dbits dnum dval H1 H2 H3 H4 H5 H6) as (m' & E & _ & _ & _ & D).
  exists m'. split; [exact E|]. rewrite (D H7). lia.
Qed.
Print Assumptions C130_distinct_partial.
Theorem C130_nothing_refuted : forall m dbyte b dval, bytes m -> dbyte < N.of_nat (length m) -> b < 8 -> fj_inject MultiBitFlip m dbyte [b; b] 0 dval = Ret m.
Proof. exact multi_cancel. Qed.
Print Assumptions C130_nothing_refuted.
Example C130_nonvacuous : exists m', fj_inject MultiBitFlip [1; 2; 3] 1 [0; 7; 3; 4] 2 0 = Ret m' /\ distance [1; 2; 3] m' = 4.
Proof. exists [1; 155; 3]. split; vm_compute; reflexivity. Qed.

(** C131: testResilience *)
Theorem C131_counts : forall (S : Type) (inject : S -> S) verify repair n s,
  exists l s' r, test_resilience inject verify repair n s = (s', r) /\ trials inject verify repair s l s' /\ Z.of_nat (length l) = Z.max n 0 /\
    rdet r = Z.of_N (count was_detected l) /\ rcor r = Z.of_N (count was_corrected l) /\ (0 <= rcor r <= rdet r)%Z /\ (rdet r <= Z.max n 0)%Z /\
    (rdetected r = true <-> (0 < rdet r)%Z) /\ (rcorrected r = true <-> (0 < rcor r)%Z).
Proof. exact @resilience. Qed.
Print Assumptions C131_counts.
Theorem C131_all : forall (S : Type) (inject : S -> S) verify repair n s s' r,
  (forall x, snd (verify (repair x)) = true) -> (forall x, snd (verify (inject x)) = false) -> test_resilience inject verify repair n s = (s', r) ->
  rdet r = Z.max n 0 /\ rcor r = Z.max n 0.
Proof. exact @resilience_good. Qed.
Print Assumptions C131_all.
Example C131_nonvacuous : test_resilience (fun x => x + 1) (fun x => (x, x mod 2 =? 0)) (fun x => if x =? 1 then 2 else x) 4 0 = (5, mkTR true true 3 1).
Proof. vm_compute. reflexivity. Qed.

(** C132: SEUSimulator::injectBitFlips *)
Theorem C132_upsets : forall e m dur num ds m' r, bytes m -> legal_flips (length m) ds -> (N.to_nat num <= length ds)%nat -> m <> [] ->
  inject_bit_flips (Some e) (Some m) dur num ds = Ret (m', r) ->
  r = num /\ exists m2, m' = Some m2 /\ length m2 = length m /\ bytes m2 /\
    (forall p, bit_at m2 p = xorb (bit_at m p) (inverted (as_cells (firstn (N.to_nat num) ds)) p)) /\
    distance m m2 <= num /\ N.odd (distance m m2) = N.odd num.
Proof. exact seu_flips. Qed.
Print Assumptions C132_upsets.
Definition leo : sf * sf := (sofZ 5, sdiv (sofZ 1) (sofZ 10)).
Example C132_nonvacuous : inject_bit_flips (Some leo) (Some [7; 0]) 1000 3 [(0, 1); (1, 7); (0, 1)] = Ret (Some [7; 128], 3).
Proof. vm_compute. reflexivity. Qed.

(** C133: simulateSEUs *)
Theorem C133_regions : forall env dur regions draws regions' tot log, length draws = length regions ->
  simulate_seus env regions dur draws 0 0 = Ret (regions', tot, log) ->
  exists counts, length counts = length regions /\ length regions' = length regions /\
    (forall k, (k < length regions)%nat -> inject_bit_flips env (nth k regions None) dur (fst (nth k draws (0, []))) (snd (nth k draws (0, []))) =
       Ret (nth k regions' None, nth k counts 0)) /\
    tot = sumN counts mod 2 ^ 32 /\ log = filter (fun p => 0 <? snd p) (combine (seq 0 (length regions)) counts).
Proof. exact seus_all. Qed.
Print Assumptions C133_regions.
Example C133_nonvacuous : simulate_seus (Some leo) [Some [7]; Some [1]; None; Some [2]] 1000 [(1, [(0, 0)]); (0, []); (5, []); (2, [(0, 0); (0, 3)])] 0 0 =
  Ret ([Some [6]; Some [1]; None; Some [11]], 3, [(0%nat, 1); (3%nat, 2)]).
Proof. vm_compute. reflexivity. Qed.

(** C134: no exposure or no memory *)
Theorem C134_nothing_partial : forall env mem dur num ds, env = None \/ mem = None \/ mem = Some [] -> inject_bit_flips env mem dur num ds = Ret (mem, 0).
Proof. exact seu_nothing. Qed.
Print Assumptions C134_nothing_partial.
Theorem C134_undefined_refuted :
  (forall e m num ds, m <> [] -> inject_bit_flips (Some e) (Some m) 0 num ds = UB UB_bad_iterator) /\
  (forall r m ds, simulate r m 0 ds = UB UB_bad_iterator) /\
  (forall t dbyte dbits dnum dval, fj_inject t [] dbyte dbits dnum dval = UB UB_out_of_bounds).
Proof. split; [exact seu_no_time|]. split; [exact no_time|exact fj_empty]. Qed.
Print Assumptions C134_undefined_refuted.
Example C134_nonvacuous : inject_bit_flips (Some leo) (Some []) 1000 3 [(0, 1)] = Ret (Some [], 0).
Proof. reflexivity. Qed.

(** C135: one event *)
Theorem C135_event : forall r m d, bytes m -> legal_rs (length m) d ->
  exists m' e, generate_event r m d = Ret (m', e) /\ bytes m' /\ only_byte (N.to_nat (dloc d)) m m' /\ eoffset e = dloc d /\
    etype e = event_kind r (dvalue d) /\ effect_ok (etype e) d m m' /\ distance m m' <= ebits e /\ 1 <= ebits e <= 8.
Proof. exact event_effect. Qed.
Print Assumptions C135_event.
Definition rates_leo : rates := update_rates (base_rate (mission_environment "LEO") (dlit 6 10)).
Definition ev (v : sf) (loc : N) : rs_draw := mkRD v loc 2 3 4 true 9.
Example C135_nonvacuous : legal_rs 3 (ev (dofZ 0) 1) /\
  generate_event rates_leo [1; 2; 3] (ev (dofZ 0) 1) = Ret ([1; 6; 3], mkEv BIT_FLIP 1 1) /\
  generate_event rates_leo [1; 2; 3] (ev (r_bit rates_leo) 1) = Ret ([1; 114; 3], mkEv MULTI_BIT_UPSET 1 3) /\
  generate_event rates_leo [1; 2; 3] (ev (dadd (r_bit rates_leo) (r_multi rates_leo)) 1) = Ret ([1; 6; 3], mkEv LATCHUP 1 1) /\
  generate_event rates_leo [1; 2; 3] (ev (r_total rates_leo) 1) = Ret ([1; 9; 3], mkEv TRANSIENT 1 8).
Proof. split; [unfold legal_rs; simpl; lia|]. repeat split; vm_compute; reflexivity. Qed.

(** C136: a run *)
Theorem C136_run : forall r m ms ds m' es, bytes m -> Forall (legal_rs (length m)) ds -> simulate r m ms ds = Ret (m', es) ->
  bytes m' /\ length m' = length m /\ map eoffset es = map dloc ds /\ map etype es = map (fun d => event_kind r (dvalue d)) ds /\
  (forall k, ~ In (N.of_nat k) (map eoffset es) -> nth k m' 0 = nth k m 0) /\ distance m m' <= sumN (map ebits es).
Proof.
  intros r m ms ds m' es Hb Hl H. unfold simulate in H. destruct (flt _ _) in H; [|discriminate H].
  destruct (effects r ds m Hb Hl) as (m2 & es2 & E & R). rewrite E in H. injection H as <- <-. exact R.
Qed.
Print Assumptions C136_run.
Example C136_nonvacuous : simulate rates_leo [1; 2; 3] 1000 [ev (dofZ 0) 1; ev (dofZ 0) 1; ev (r_total rates_leo) 2] =
  Ret ([1; 2; 9], [mkEv BIT_FLIP 1 1; mkEv BIT_FLIP 1 1; mkEv TRANSIENT 2 8]).
Proof. vm_compute. reflexivity. Qed.

Local Open Scope R_scope.
(** C137: the rates *)
Theorem C137_rates : forall p e, sensible_env p e -> ordered_rates (update_rates (base_rate p e)) /\ R (r_total (update_rates (base_rate p e))) <= 2160.
Proof. exact rates_ok. Qed.
Print Assumptions C137_rates.
Theorem C137_missions : forall name e, within 0 1 e -> sensible_env (mission_environment name) e.
Proof. exact missions_sensible. Qed.
Print Assumptions C137_missions.
Example C137_nonvacuous : flt (dofZ 0) (r_trans rates_leo) = true /\ mission_name (mission_environment "MOON") = "Lunar Mission"%string.
Proof. split; vm_compute; reflexivity. Qed.

(** C138: a harsher environment has higher rates *)
Theorem C138_monotone_partial : forall p e q f, sensible_env p e -> sensible_env q f -> harsher p e q f -> (R (altitude_km q) <= 36000 \/ 36000 < R (altitude_km p)) ->
  let r := update_rates (base_rate p e) in let s := update_rates (base_rate q f) in
  R (r_bit r) <= R (r_bit s) /\ R (r_multi r) <= R (r_multi s) /\ R (r_latch r) <= R (r_latch s) /\ R (r_trans r) <= R (r_trans s) /\ R (r_total r) <= R (r_total s).
Proof. exact rates_monotone. Qed.
Print Assumptions C138_monotone_partial.
Definition orbit (alt : Z) : env_params := mkEnv (dofZ alt) (dofZ 0) (dofZ 3) false (dofZ 5) "Geostationary Orbit".
Theorem C138_beyond_geo_refuted : exists p q e, sensible_env p e /\ sensible_env q e /\ harsher p e q e /\
  flt (r_total (update_rates (base_rate q e))) (r_total (update_rates (base_rate p e))) = true.
Proof. exact beyond_geo. Qed.
Print Assumptions C138_beyond_geo_refuted.
Example C138_nonvacuous : flt (r_total (update_rates (base_rate (orbit 400) (dlit 6 10)))) (r_total (update_rates (base_rate (orbit 800) (dlit 6 10)))) = true.
Proof. vm_compute. reflexivity. Qed.
