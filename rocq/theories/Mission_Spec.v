(** What a mission simulation should do and count.  From the model only input types and plain observations are used. *)
From Coq Require Import String List NArith ZArith Bool Reals SpecFloat.
Import ListNotations.
From Verif Require Import Outcome Floats FloatsR HealthFloat Bits_Model Edac_Model Inject_Model Inject_Spec Mission_Model.
Local Open Scope Z_scope.

(** ** events *)
(** What a TMR- or ECC-protected region makes of an event, as probabilities over the draws (each uniform in 0..1):
    TMR notices 99% and repairs 95% of those; what TMR does not notice ECC notices with a probability that depends on the kind of
    event, and repairs 95% of the single bit flips it notices. *)
Definition ecc_notices (k : effect) : sf := match k with BIT_FLIP => dlit 98 100 | MULTI_BIT_UPSET => dlit 75 100 | LATCHUP | TRANSIENT => dlit 5 10 end.
Definition by_tmr (s : settings) (prot : bool) (d : det_draw) : bool := prot && s_tmr s && flt (t_detect d) (dlit 99 100).
Definition by_ecc (s : settings) (prot : bool) (k : effect) (d : det_draw) : bool :=
  prot && s_ecc s && negb (by_tmr s prot d) && flt (e_detect d) (ecc_notices k).
Definition repaired (s : settings) (prot : bool) (k : effect) (d : det_draw) : bool :=
  (by_tmr s prot d && flt (t_correct d) (dlit 95 100)) ||
  (by_ecc s prot k d && (match k with BIT_FLIP => true | _ => false end) && flt (e_correct d) (dlit 95 100)).
(** an event: its kind, noticed by TMR, noticed at all, repaired *)
Record happening := mkH { h_kind : effect; h_tmr : bool; h_noticed : bool; h_repaired : bool }.
Definition happens (r : rates) (s : settings) (prot : bool) (x : rs_draw * det_draw) : happening :=
  let k := event_kind r (dvalue (fst x)) in
  mkH k (by_tmr s prot (snd x)) (by_tmr s prot (snd x) || by_ecc s prot k (snd x)) (repaired s prot k (snd x)).
(** everything that happens to the regions in one time step *)
Definition happenings (r : rates) (s : settings) (gs : list mregion) (dss : list (list (rs_draw * det_draw))) : list happening :=
  flat_map (fun x => map (happens r s (g_prot (fst x))) (snd x)) (combine gs dss).
Definition many (f : happening -> bool) (hs : list happening) : N := N.of_nat (length (filter f hs)).
Definition is_kind (k : effect) (h : happening) : bool :=
  match k, h_kind h with BIT_FLIP, BIT_FLIP | MULTI_BIT_UPSET, MULTI_BIT_UPSET | LATCHUP, LATCHUP | TRANSIENT, TRANSIENT => true | _, _ => false end.
Definition events_in (name : string) (s : mstats) : N := match lookup name (m_by_env s) with Some n => n | None => 0%N end.
(** [t] is [s] with the happenings [hs], in the environment called [name], counted *)
Definition counted (name : string) (hs : list happening) (s t : mstats) : Prop :=
  (m_events t = m_events s + N.of_nat (length hs) /\
   m_flips t = m_flips s + many (is_kind BIT_FLIP) hs /\ m_upsets t = m_upsets s + many (is_kind MULTI_BIT_UPSET) hs /\
   m_latchups t = m_latchups s + many (is_kind LATCHUP) hs /\ m_transients t = m_transients s + many (is_kind TRANSIENT) hs /\
   m_detected t = m_detected s + many h_noticed hs /\ m_undetected t = m_undetected s + many (fun h => negb (h_noticed h)) hs /\
   m_corrected t = m_corrected s + many h_repaired hs /\ m_tmr t = m_tmr s + many h_tmr hs /\
   events_in name t = events_in name s + N.of_nat (length hs) /\ forall other, other <> name -> events_in other t = events_in other s)%N.
(** every event is counted once by kind, once by its fate and once under an environment *)
Definition balanced (s : mstats) : Prop :=
  (m_flips s + m_upsets s + m_latchups s + m_transients s = m_events s /\ m_detected s + m_undetected s = m_events s /\
   m_corrected s <= m_detected s /\ m_tmr s <= m_detected s /\
   NoDup (map fst (m_by_env s)) /\ sumN (map snd (m_by_env s)) = m_events s)%N.

(** ** protection *)
(** the settings the configuration asks for at this rate *)
Definition asked (c : mconfig) (rate : sf) : settings :=
  if c_adaptive c then if fle (c_thr_high c) rate then c_high c else if fle (c_thr_medium c) rate then c_medium c else c_low c else c_medium c.
(** [b] protects at least as well as [a] *)
Definition no_weaker (a b : settings) : Prop :=
  (s_tmr a = true -> s_tmr b = true) /\ (s_ecc a = true -> s_ecc b = true) /\ (s_scrub a = true -> s_scrub b = true) /\ s_interval b <= s_interval a.

(** ** memory *)
Definition covered (gs : list mregion) (i : nat) : Prop := exists g, In g gs /\ (g_addr g <= i < g_addr g + g_size g)%nat.
Definition bytes_of (prot : bool) (os : list mop) : N :=
  sumN (map (fun o => match o with Register _ n p => if Bool.eqb p prot then N.of_nat n else 0%N | _ => 0%N end) os).

(** ** environments *)
(** A profile with a duration for every environment and at most that many probabilities; the durations, in milliseconds, fit. *)
Definition proper_duration (x : sf) : Prop := okd x /\ (0 <= R x <= 9000000000000)%R.
Definition proper_profile (p : mprofile) : Prop :=
  p_envs p <> [] /\ (length (p_envs p) <= length (p_durations p))%nat /\ (length (p_probs p) <= length (p_envs p))%nat /\ Forall proper_duration (p_durations p).
(** the cumulated probability of the first [i] environments, as the double the additions give *)
Definition cumulated (probs : list sf) (i : nat) : sf := fold_left dadd (firstn i probs) (dofZ 0).
Definition probability (x : sf) : Prop := within 0 1 x.
(** it is time to choose an environment: [t] milliseconds after the last choice (or the start), the duration of the environment
    (in seconds) has passed, or a 1% chance says so *)
Definition due (duration : sf) (t : Z) (chance : sf) : bool :=
  match trunc_sf (dmul duration (dofZ 1000)) with Some z => z <=? t | None => false end || flt chance (dlit 1 100).
(** the upsets of an environment are frequent enough to be drawn: the mean over one step is a positive double *)
Definition active (libm_exp : sf -> sf) (ts : Z) (e : env_params) : Prop :=
  flt (S754_zero false) (dmul (r_total (env_rates libm_exp e)) (ddiv (dofZ ts) (dofZ 1000))) = true.
Definition regions_in (gs : list mregion) (size : nat) : Prop := Forall (fun g => (0 < g_size g)%nat /\ (g_addr g + g_size g <= size)%nat) gs.
Definition legal_step (gs : list mregion) (d : step_draw) : Prop :=
  Forall (fun x => Forall (fun y => legal_rs (g_size (fst x)) (fst y)) (snd x)) (combine gs (d_events d)).
(** the environment the simulator is in is the one of its profile *)
Definition in_profile (k : msim) : Prop := nth_error (p_envs (k_profile k)) (k_index k) = Some (k_env k).
Definition changes (l : list seen) : list env_params := flat_map (fun x => match x with Changed e => [e] | Scrubbed _ => [] end) l.
Definition scrub_times (l : list seen) : list Z := flat_map (fun x => match x with Scrubbed t => [t] | Changed _ => [] end) l.
(** number of steps of [ts] milliseconds it takes to cover [total] seconds *)
Definition steps (total ts : Z) : Z := (total * 1000 + ts - 1) / ts.
(** times that are whole seconds, [z] in all *)
Definition whole_times (s : mstats) (z : Z) : Prop :=
  exists zs, map snd (m_time s) = map dofZ zs /\ Forall (fun x => 0 <= x) zs /\ fold_right Z.add 0 zs = z.
(** each time in the list is at least [gap] after the one before, and after [t] *)
Fixpoint spaced (gap t : Z) (l : list Z) : Prop := match l with [] => True | x :: r => t + gap <= x /\ spaced gap x r end.
(** each is at most [gap] after the one before, the first after [t], and [stop] after the last *)
Fixpoint dense (gap t : Z) (l : list Z) (stop : Z) : Prop := match l with [] => stop - t <= gap | x :: r => x - t <= gap /\ dense gap x r stop end.
(** a configuration whose three levels all satisfy [P] *)
Definition all_settings (P : settings -> Prop) (c : mconfig) : Prop := P (c_low c) /\ P (c_medium c) /\ P (c_high c).
(** seconds spent in an environment *)
Definition time_in (name : string) (s : mstats) : option sf := lookup name (m_time s).
(** A run is possible: a proper profile, environments with upsets, registered regions inside the memory, which holds bytes. *)
Definition bytes_in (m : list N) : Prop := Forall (fun b => (b < 256)%N) m.
Definition ready (E : sf -> sf) (ts : Z) (k : msim) (m : list N) : Prop :=
  proper_profile (k_profile k) /\ (k_index k < length (p_envs (k_profile k)))%nat /\ Forall (active E ts) (p_envs (k_profile k)) /\ active E ts (k_env k) /\
  bytes_in m /\ regions_in (k_regions k) (length m).
(** two configurations that differ at most in the energy budget, the energy costs and the low threshold *)
Definition same_rules (a b : mconfig) : Prop := c_adaptive a = c_adaptive b /\ c_thr_medium a = c_thr_medium b /\ c_thr_high a = c_thr_high b /\
  c_low a = c_low b /\ c_medium a = c_medium b /\ c_high a = c_high b.
