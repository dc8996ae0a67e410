(** Properties C101-C108: RadiationMappedAllocator. *)
From Coq Require Import List NArith ZArith Bool Reals.
Import ListNotations.
From Verif Require Import Outcome Words Arith Floats FloatsR HealthFloat RMA_Model RMA_Spec RMA_Proofs RMA2_Proofs RMA3_Proofs RMA4_Proofs.
Local Open Scope N_scope.

(** C101: for one zone per level and requests of at least one byte, every history; refuted for two zones of one level and
    for requests of zero bytes *)
Theorem C101_blocks_disjoint_partial : forall zs s0 l t s h, one_per_level zs -> proper zs -> rma_make zs = Ret s0 ->
  rma_run l s0 [] = Ret (t, s, h) -> ok_history zs t ->
  no_overlap (live t) /\
  (forall b, In b (live t) -> bsys b = false -> exists z, In z zs /\ inside b z) /\
  (forall o, ok_op zs t o -> exists x s' h', rma_do o s h = Ret (x, s', h')).
Proof. exact history. Qed.
Print Assumptions C101_blocks_disjoint_partial.
Theorem C101_default_map_partial : one_per_level default_zones /\ proper default_zones /\ rma_make default_zones = Ret rma_default.
Proof. exact default_ok. Qed.
Print Assumptions C101_default_map_partial.
Theorem C101_same_level_zones_refuted : proper twins /\ exists s0 t s h, rma_make twins = Ret s0 /\
  rma_run [OAlloc 16 HIGHLY 0; OAlloc 16 HIGHLY 0; OAlloc 16 HIGHLY 0; OAlloc 16 HIGHLY 0] s0 [] = Ret (t, s, h) /\
  ok_history twins t /\ ~ no_overlap (live t).
Proof. exact twins_overlap. Qed.
Print Assumptions C101_same_level_zones_refuted.
(* giving the zero-byte block back releases the 16-byte block at the same address *)
Theorem C101_zero_bytes_refuted : exists p s h, p <> 0 /\
  rma_run [OAlloc 16 MISSION 0; OAlloc 0 MISSION 0; OFree p; OAlloc 16 MISSION 0] rma_default [] =
  Ret ([(OAlloc 16 MISSION 0, RPtr p false); (OAlloc 0 MISSION 0, RPtr p false); (OFree p, RDone); (OAlloc 16 MISSION 0, RPtr p false)], s, h).
Proof. exact zero_bytes. Qed.
Print Assumptions C101_zero_bytes_refuted.
Example C101_nonvacuous : exists t s h,
  rma_run [OAlloc 16 MISSION 0; OAlloc 8 MISSION 0; OFree 0x10000000; OAlloc 4 MISSION 0; OAlloc 16 MISSION 0; OAlloc (32 * MB) LOW 0x7000000000]
    rma_default [] = Ret (t, s, h) /\
  map bptr (live t) = [0x10000010; 0x10000000; 0x10000018; 0x7000000000].
Proof. do 3 eexists. split; vm_compute; reflexivity. Qed.

(** C102: before the first overflow; refuted afterwards: the highly shielded zone is lost for good *)
Theorem C102_preferred_zone_partial : forall zs s0 l t s h n c m z, one_per_level zs -> proper zs -> rma_make zs = Ret s0 ->
  rma_run l s0 [] = Ret (t, s, h) -> ok_history zs t -> at_home zs t -> 1 <= n -> n < 2 ^ 64 ->
  In z zs -> zlevel z = home_level c -> zstart z <> 0 -> room z (live t) n ->
  exists p s' h', rma_do (OAlloc n c m) s h = Ret (RPtr p false, s', h') /\ inside (mkB p n c false) z.
Proof. exact preferred. Qed.
Print Assumptions C102_preferred_zone_partial.
Theorem C102_zone_lost_after_overflow_refuted : exists t1 s1 h1, rma_run overflow_once rma_default [] = Ret (t1, s1, h1) /\ ok_history default_zones t1 /\
  room HSzone (live t1) MB /\
  forall l t s h, rma_run (overflow_once ++ l) rma_default [] = Ret (t, s, h) -> ok_history default_zones t ->
  exists t2, t = t1 ++ t2 /\ forall n c m p, In (OAlloc n c m, RPtr p false) t2 -> ~ inside (mkB p n c false) HSzone.
Proof. exact highly_shielded_lost. Qed.
Print Assumptions C102_zone_lost_after_overflow_refuted.
(* the room between two live blocks is found *)
Example C102_nonvacuous : exists t s h,
  rma_run [OAlloc 16 MISSION 0; OAlloc 16 MISSION 0; OAlloc (MB - 32) MISSION 0; OFree 0x10000010] rma_default [] = Ret (t, s, h) /\
  at_home default_zones t /\ room HSzone (live t) 16 /\
  exists s' h', rma_do (OAlloc 16 MISSION 0) s h = Ret (RPtr 0x10000010 false, s', h').
Proof.
  do 3 eexists. split; [vm_compute; reflexivity|]. split; [|split].
  - intros n c m p sy [K|[K|[K|[K|[]]]]]; inversion K; subst; (split; [reflexivity|]); exists HSzone; (split; [left; reflexivity|]); (split; [reflexivity|]); split; vm_compute; congruence.
  - exists 0x10000010. split; [vm_compute; congruence|]. split; [vm_compute; congruence|].
    match goal with |- Forall _ ?l => replace l with [mkB 0x10000000 16 MISSION false; mkB 0x10000020 (MB - 32) MISSION false] by (vm_compute; reflexivity) end.
    constructor; [right; cbn [bptr bsize]; vm_compute; congruence|]. constructor; [left; cbn [bptr bsize]; vm_compute; congruence|constructor].
  - do 2 eexists. vm_compute. reflexivity.
Qed.

(** C103: the next level's zone is used; refuted: no further zone is tried, and low-importance data takes the most protected zone *)
Theorem C103_next_zone_partial : forall zs s0 l t s h n c m z f lv, one_per_level zs -> proper zs -> rma_make zs = Ret s0 ->
  rma_run l s0 [] = Ret (t, s, h) -> ok_history zs t -> at_home zs t -> 1 <= n -> n < 2 ^ 64 ->
  In z zs -> zlevel z = home_level c -> ~ room z (live t) n ->
  next_level c = Some lv -> In f zs -> zlevel f = lv -> zstart f <> 0 -> room f (live t) n ->
  exists p s' h', rma_do (OAlloc n c m) s h = Ret (RPtr p false, s', h') /\ inside (mkB p n c false) f.
Proof. exact fallback. Qed.
Print Assumptions C103_next_zone_partial.
Theorem C103_malloc_despite_room_refuted : exists n c m p s' h' z, rma_do (OAlloc n c m) rma_default [] = Ret (RPtr p true, s', h') /\
  In z default_zones /\ room z [] n.
Proof. exact fallback_misses. Qed.
Print Assumptions C103_malloc_despite_room_refuted.
Theorem C103_low_importance_in_shielded_zone_refuted : exists t s h p, rma_run [OAlloc (16 * MB) LOW 0; OAlloc 1 LOW 0] rma_default [] = Ret (t, s, h) /\
  In (OAlloc 1 LOW 0, RPtr p false) t /\ inside (mkB p 1 LOW false) HSzone.
Proof. exact low_in_highly_shielded. Qed.
Print Assumptions C103_low_importance_in_shielded_zone_refuted.
Example C103_nonvacuous : exists s' h', rma_do (OAlloc (MB + 1) MISSION 0) rma_default [] = Ret (RPtr 0x20000000 false, s', h') /\ ~ room HSzone [] (MB + 1).
Proof. do 2 eexists. split; [vm_compute; reflexivity|]. intros (a & A & B & _). unfold HSzone in *. cbn [zstart zend] in *. revert B. unfold MB in *. Lia.lia. Qed.

(** C104: exact while no malloc fails; a failed malloc is counted for ever *)
Theorem C104_usage_partial : forall zs s0 l t s h c, one_per_level zs -> proper zs -> rma_make zs = Ret s0 ->
  rma_run l s0 [] = Ret (t, s, h) -> ok_history zs t -> ~ malloc_failed t ->
  criticality_usage s c = bytes_of c (live t) mod 2 ^ 64.
Proof. exact usage. Qed.
Print Assumptions C104_usage_partial.
Theorem C104_failed_malloc_counted_refuted : exists t s h, rma_run [OAlloc (32 * MB) MISSION 0] rma_default [] = Ret (t, s, h) /\ live t = [] /\
  criticality_usage s MISSION = 32 * MB.
Proof. exact failed_malloc_counted. Qed.
Print Assumptions C104_failed_malloc_counted_refuted.
Example C104_nonvacuous : exists t s h, rma_run [OAlloc 100 LOW 0; OAlloc 50 HIGHLY 0; OFree 0x40000000; OAlloc 7 LOW 0] rma_default [] = Ret (t, s, h) /\
  bytes_of LOW (live t) = 7 /\ bytes_of HIGHLY (live t) = 50.
Proof. do 3 eexists. split; [vm_compute; reflexivity|]. split; vm_compute; reflexivity. Qed.

(** C105 *)
Theorem C105_diagnostics : forall zs s0 l t s h z, one_per_level zs -> proper zs -> rma_make zs = Ret s0 ->
  rma_run l s0 [] = Ret (t, s, h) -> ok_history zs t -> In z zs ->
  diag_zone s (zlevel z) = (N.of_nat (length (filter (in_zone z) (live t))) mod 2 ^ 64, sumN (map bsize (filter (in_zone z) (live t))) mod 2 ^ 64).
Proof. exact diagnostics. Qed.
Print Assumptions C105_diagnostics.
Example C105_nonvacuous : exists t s h, rma_run [OAlloc 100 LOW 0; OAlloc 50 LOW 0; OFree 0x40000000; OAlloc 7 LOW 0] rma_default [] = Ret (t, s, h) /\
  diag_zone s US = (2, 57).
Proof. do 3 eexists. split; vm_compute; reflexivity. Qed.

(** C106: up to 2^49 live bytes and while no malloc fails; refuted when failed requests are counted and the byte total wraps *)
Theorem C106_score_partial : forall zs s0 l t s h, one_per_level zs -> proper zs -> rma_make zs = Ret s0 ->
  rma_run l s0 [] = Ret (t, s, h) -> ok_history zs t -> ~ malloc_failed t ->
  (live t = [] -> vulnerability_score s = dofZ 0) /\
  (live t <> [] -> (total (live t) <= 2 ^ 49)%N ->
   okd (vulnerability_score s) /\ (0 <= FloatsR.R (vulnerability_score s) <= 1)%R /\
   (Rabs (FloatsR.R (vulnerability_score s) - mean_exposure zs (live t)) <= (5 * INR (length (live t)) + 2) * / 9007199254740992 * mean_exposure zs (live t))%R).
Proof. exact score. Qed.
Print Assumptions C106_score_partial.
Theorem C106_score_out_of_range_refuted : exists t s h, rma_run [OAlloc (2 ^ 63) MISSION 0; OAlloc (2 ^ 63 + 1) MISSION 0] rma_default [] = Ret (t, s, h) /\
  live t = [] /\ fgt (vulnerability_score s) (dofZ 1) = true.
Proof. exact score_out_of_range. Qed.
Print Assumptions C106_score_out_of_range_refuted.
Example C106_nonvacuous : exists t s h, rma_run [OAlloc 100 LOW 0; OAlloc 50 MISSION 0] rma_default [] = Ret (t, s, h) /\
  fgt (vulnerability_score s) (dlit 86 1000) = true /\ flt (vulnerability_score s) (dlit 87 1000) = true.
Proof. do 3 eexists. split; [vm_compute; reflexivity|]. split; vm_compute; reflexivity. Qed.

(** C107: for zones with start <= end; an inverted zone is accepted and used beyond its bounds *)
Theorem C107_constructor_partial : forall zs, Forall (fun z => zstart z <= zend z) zs ->
  (zs <> [] /\ separate zs -> rma_make zs = Ret (mkRma zs [] [] [])) /\
  (~ (zs <> [] /\ separate zs) -> rma_make zs = Throw E_runtime_error).
Proof. exact constructor_check. Qed.
Print Assumptions C107_constructor_partial.
Theorem C107_inverted_zone_refuted : exists s0 p s h, rma_make inverted = Ret s0 /\ rma_do (OAlloc 100 MISSION 0) s0 [] = Ret (RPtr p false, s, h) /\
  forall z, In z inverted -> ~ inside (mkB p 100 MISSION false) z.
Proof. exact inverted_zone. Qed.
Print Assumptions C107_inverted_zone_refuted.
Example C107_nonvacuous : rma_make [mkZone HS 0 10; mkZone MS 10 20] = Throw E_runtime_error /\
  rma_make [mkZone HS 0 10; mkZone MS 11 20] = Ret (mkRma [mkZone HS 0 10; mkZone MS 11 20] [] [] []).
Proof. split; reflexivity. Qed.

(** C108: when n * sizeof(T) does not wrap; refuted otherwise: 8 bytes are reserved for 2^61+1 objects *)
Theorem C108_stl_partial : forall zs s0 l t s h sz n c m, one_per_level zs -> proper zs -> rma_make zs = Ret s0 ->
  rma_run l s0 [] = Ret (t, s, h) -> ok_history zs t -> 1 <= n * sz -> n * sz < 2 ^ 64 -> (m = 0 \/ fresh zs t m (n * sz)) ->
  exists p sy s', stl_allocate sz n c m s = Ret (p, sy, s') /\ (p <> 0 -> no_overlap (live t ++ [mkB p (n * sz) c sy])).
Proof. exact stl_serves. Qed.
Print Assumptions C108_stl_partial.
Theorem C108_stl_wraps_refuted : exists n p s, n < 2 ^ 64 /\ stl_allocate 8 n LOW 0 rma_default = Ret (p, false, s) /\ 
  p + n * 8 > 0x40000000 + 16 * MB /\ criticality_usage s LOW = 8.
Proof. exact stl_wraps. Qed.
Print Assumptions C108_stl_wraps_refuted.
Example C108_nonvacuous : exists s, stl_allocate 8 5 LOW 0 rma_default = Ret (0x40000000, false, s) /\ criticality_usage s LOW = 40.
Proof. eexists. split; vm_compute; reflexivity. Qed.
