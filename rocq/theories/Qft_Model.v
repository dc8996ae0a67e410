(** Model of the library rad_ml_qft: QF = src/rad_ml/physics/quantum_field_theory.cpp, QFH = include/rad_ml/physics/quantum_field_theory.hpp,
    QM = src/rad_ml/physics/quantum_models.cpp, QMH = include/rad_ml/physics/quantum_models.hpp,
    QE = src/rad_ml/physics/quantum_enhanced_radiation.cpp, QEH = include/rad_ml/physics/quantum_enhanced_radiation.hpp.
    std::exp, std::pow(x, 2), sin, cos, std::abs and std::arg of a complex are parameters; std::sqrt is IEEE's.  Console output and logging
    are left out.  std::vector's allocation is assumed to find memory; its max_size is libstdc++'s.  An unordered_map keyed by ParticleType
    is a function to option.  The Eigen-valued functions (kinetic and potential terms, propagators) return placeholders and are left out. *)
From Coq Require Import List NArith ZArith Bool Arith SpecFloat.
Import ListNotations.
From Verif Require Import Outcome Words Floats Bits_Model.
Local Open Scope outcome_scope.
Local Open Scope Z_scope.

(** a decimal literal num/den, correctly rounded whatever the sizes of num and den *)
Definition dq (num den : positive) : sf := SFdiv 53 1024 (S754_finite false num 0) (S754_finite false den 0).
Definition d0 : sf := S754_zero false.
Definition d1 : sf := dofZ 1.
(* std::clamp *)
Definition dclamp (v lo hi : sf) : sf := if flt v lo then lo else if flt hi v then hi else v.

(* QFH:31-41 *)
Inductive ptype := Proton | Electron | Neutron | Photon | HeavyIon | Positron | Muon | Neutrino.
Definition ptypes : list ptype := [Proton; Electron; Neutron; Photon; HeavyIon; Positron; Muon; Neutrino].
Definition ptype_eqb (a b : ptype) : bool :=
  match a, b with
  | Proton, Proton | Electron, Electron | Neutron, Neutron | Photon, Photon | HeavyIon, HeavyIon | Positron, Positron | Muon, Muon
  | Neutrino, Neutrino => true
  | _, _ => false
  end.
Definition pmap (A : Type) : Type := ptype -> option A.
Definition pset {A} (m : pmap A) (k : ptype) (v : A) : pmap A := fun j => if ptype_eqb j k then Some v else m j.

(* QFH:97-108 *)
Inductive ltype := FCC | BCC | DIAMOND.
Record crystal := mkC { c_type : ltype; c_const : sf; c_barrier : sf }.
Definition default_crystal : crystal := mkC DIAMOND (dq 543 100) d1.
(* QFH:111-123 *)
Record defects := mkD { interst : pmap (list sf); vacs : pmap (list sf); clus : pmap (list sf) }.
Definition only_proton (l : list sf) : pmap (list sf) := fun k => match k with Proton => Some l | _ => None end.
Definition default_defects : defects :=
  mkD (only_proton [d1; dofZ 2; dofZ 3]) (only_proton [d1; dofZ 2; dofZ 3]) (only_proton [dq 1 2; d1; dq 3 2]).
(* QFH:126-162; potential_coefficient and dimensions are never read *)
Record qparams := mkQ { hbar : sf; masses : pmap sf; couplings : pmap sf; q_spacing : sf; time_step : sf; omega : sf;
                        phase_rate : sf; damping : sf; temp_threshold : sf; temp_factor : sf; pos_amp : sf }.
Definition default_masses : pmap sf := fun k =>
  match k with
  | Proton => Some (dq 16726219 (10 ^ 34)%positive) | Electron => Some (dq 91093837 (10 ^ 38)%positive)
  | Neutron => Some (dq 16749275 (10 ^ 34)%positive) | Photon => Some (dq 1 (10 ^ 30)%positive) | _ => None end.
Definition default_couplings : pmap sf := fun k => match k with Proton | Electron | Neutron | Photon => Some (dq 1 10) | _ => None end.
Definition hbar_ev : sf := dq 6582119569 (10 ^ 25)%positive.
Definition default_qparams : qparams :=
  mkQ hbar_ev default_masses default_couplings d1 (dq 1 (10 ^ 18)%positive) (dofZ (10 ^ 15)) (dofZ (10 ^ 15)) (dq 1 1000) (dofZ 150) (dofZ 100) (dq 1 100).
(* QFH:165-173 *)
Definition getMass (q : qparams) (t : ptype) : outcome sf := match masses q t with Some m => Ret m | None => Throw E_runtime_error end.
(* QFH:176-184 *)
Definition getCoupling (q : qparams) (t : ptype) : outcome sf := match couplings q t with Some m => Ret m | None => Throw E_runtime_error end.

(** ** the lattice *)
Definition cplx : Type := (sf * sf)%type.
Definition czero : cplx := (d0, d0).
(* std::complex<double> operators *)
Definition cadd (a b : cplx) : cplx := (dadd (fst a) (fst b), dadd (snd a) (snd b)).
Definition csub (a b : cplx) : cplx := (dsub (fst a) (fst b), dsub (snd a) (snd b)).
Definition cscale (a : cplx) (x : sf) : cplx := (dmul (fst a) x, dmul (snd a) x).
Definition cdivr (a : cplx) (x : sf) : cplx := (ddiv (fst a) x, ddiv (snd a) x).
Definition cnorm (a : cplx) : sf := dadd (dmul (fst a) (fst a)) (dmul (snd a) (snd a)).

(* QFH:277-281 *)
Record field := mkF { f_type : ptype; f_spacing : sf; f_dims : list Z; f_data : list cplx }.
Definition size_max : Z := 2 ^ 64 - 1.
(* libstdc++: vector<complex<double>>::max_size() = PTRDIFF_MAX / 16 *)
Definition max_points : Z := 2 ^ 59 - 1.
Definition int_max : Z := 2 ^ 31 - 1.
(* QF:53-60; an int is converted to size_t before the division *)
Fixpoint total_size (dims : list Z) (total : Z) : outcome Z :=
  match dims with
  | [] => Ret total
  | dim :: r => let d := dim mod 2 ^ 64 in
                if d =? 0 then UB UB_div_zero
                else if size_max / d <? total then Throw E_overflow_error
                else total_size r ((total * d) mod 2 ^ 64)
  end.
(* QF:39-70 *)
Definition field_new (D : nat) (dims : list Z) (spacing : sf) (t : ptype) : outcome field :=
  if negb (Nat.eqb (length dims) D) then Throw E_invalid_argument
  else total <- total_size dims 1 ;;
       if max_points <? total then Throw E_length_error
       else Ret (mkF t spacing dims (repeat czero (Z.to_nat total))).
(* static_cast<int>(size_t) *)
Definition to_int (z : Z) : Z := let w := z mod 2 ^ 32 in if w <? 2 ^ 31 then w else w - 2 ^ 32.
(* QF:308-324; the lists are reversed, so the loop runs from the last dimension to the first *)
Fixpoint index_loop (rpos rdims : list Z) (index stride : Z) : outcome Z :=
  match rpos, rdims with
  | p :: rp, d :: rd =>
      if (p <? 0) || (d <=? p) then Throw E_out_of_range
      else if size_max / (d mod 2 ^ 64) <? stride then Throw E_overflow_error
      else index_loop rp rd ((index + (p * stride) mod 2 ^ 64) mod 2 ^ 64) ((stride * d) mod 2 ^ 64)
  | _, _ => Ret index
  end.
(* QF:298-328 *)
Definition calculateIndex (f : field) (pos : list Z) : outcome Z :=
  if negb (Nat.eqb (length pos) (length (f_dims f))) then Throw E_invalid_argument
  else i <- index_loop (rev pos) (rev (f_dims f)) 0 1 ;; Ret (to_int i).
(* QF:332-336; a negative int becomes a size_t beyond the end *)
Definition getFieldAt (f : field) (pos : list Z) : outcome cplx :=
  i <- calculateIndex f pos ;;
  if i <? 0 then UB UB_array_index
  else match nth_error (f_data f) (Z.to_nat i) with Some v => Ret v | None => UB UB_array_index end.
Fixpoint set_nth {A} (l : list A) (n : nat) (v : A) : list A :=
  match l, n with [], _ => [] | _ :: r, O => v :: r | x :: r, S k => x :: set_nth r k v end.
Definition with_data (f : field) (d : list cplx) : field := mkF (f_type f) (f_spacing f) (f_dims f) d.
(* QF:340-345 *)
Definition setFieldAt (f : field) (pos : list Z) (v : cplx) : outcome field :=
  i <- calculateIndex f pos ;;
  if (i <? 0) || (Z.of_nat (length (f_data f)) <=? i) then UB UB_array_index
  else Ret (with_data f (set_nth (f_data f) (Z.to_nat i) v)).
(* QFH:267 *)
Definition setParticleType (f : field) (t : ptype) : field := mkF t (f_spacing f) (f_dims f) (f_data f).

Definition zrange (a n : Z) : list Z := map (fun k => a + Z.of_nat k) (seq 0 (Z.to_nat n)).
(* the nested loops "for i < dims[dim]" in the order the positions are visited *)
Fixpoint positions (dims : list Z) : list (list Z) :=
  match dims with [] => [[]] | d :: r => flat_map (fun i => map (cons i) (positions r)) (zrange 0 d) end.
Fixpoint for_each {A S : Type} (body : A -> S -> outcome S) (l : list A) (s : S) : outcome S :=
  match l with [] => Ret s | x :: r => s' <- body x s ;; for_each body r s' end.
(* read a point, compute, write it back *)
Definition point_update (g : list Z -> cplx -> outcome cplx) (pos : list Z) (f : field) : outcome field :=
  v <- getFieldAt f pos ;; w <- g pos v ;; setFieldAt f pos w.
Definition sweep (g : list Z -> cplx -> outcome cplx) (f : field) : outcome field := for_each (point_update g) (positions (f_dims f)) f.

(* QF:73-86: [gauss mean sd k] is the k-th pair of numbers the two distributions give *)
Definition initializeGaussian (gauss : sf -> sf -> nat -> cplx) (mean sd : sf) (f : field) : field :=
  with_data f (map (gauss mean sd) (seq 0 (length (f_data f)))).

Section Lib.
Variables (fexp fpow2 fsin fcos : sf -> sf) (cabs carg : cplx -> sf).
Definition sqrt_d (x : sf) : sf := SFsqrt 53 1024 x.

(* QF:101-107 *)
Fixpoint dist2 (dims pos : list Z) (acc : sf) : sf :=
  match dims, pos with
  | d :: ds, p :: ps => let center := ddiv (dofZ d) (dofZ 2) in
                        let dist := ddiv (dsub (dofZ p) center) center in
                        dist2 ds ps (dadd acc (dmul dist dist))
  | _, _ => acc
  end.
(* QF:110-113 *)
Definition coherent_at (dims : list Z) (amp phase : sf) (pos : list Z) : cplx :=
  let base := (dmul (fcos phase) amp, dmul (fsin phase) amp) in
  cscale base (fexp (SFopp (dist2 dims pos d0))).
(* QF:89-128 *)
Definition initializeCoherentState (amp phase : sf) (f : field) : outcome field :=
  for_each (fun pos g => setFieldAt g pos (coherent_at (f_dims f) amp phase pos)) (positions (f_dims f)) f.

(* QF:243-258 *)
Definition evolve_point (q : qparams) (v : cplx) : cplx :=
  let phase := dadd (carg v) (dmul (omega q) (time_step q)) in
  cscale (cscale (fcos phase, fsin phase) (cabs v)) (dsub d1 (dmul (dq 1 1000) (time_step q))).
Fixpoint evolve_steps (q : qparams) (n : nat) (f : field) : outcome field :=
  match n with O => Ret f | S k => g <- sweep (fun _ v => Ret (evolve_point q v)) f ;; evolve_steps q k g end.
(* QF:231-282: the particle type is chosen and not used *)
Definition evolve (q : qparams) (steps : Z) (t : option ptype) (f : field) : outcome field := evolve_steps q (Z.to_nat steps) f.

(* QF:178-180 *)
Definition laplacian (spacing : sf) (c xp xm yp ym zp zm : cplx) : cplx :=
  cdivr (csub (cadd (cadd (cadd (cadd (cadd xp xm) yp) ym) zp) zm) (cscale c (dofZ 6))) (dmul spacing spacing).
(* QF:163-183 *)
Definition kinetic_at (q : qparams) (mass : sf) (f : field) (pos : list Z) (acc : sf) : outcome sf :=
  match pos with
  | [i; j; k] =>
      c <- getFieldAt f [i; j; k] ;; xp <- getFieldAt f [i + 1; j; k] ;; xm <- getFieldAt f [i - 1; j; k] ;;
      yp <- getFieldAt f [i; j + 1; k] ;; ym <- getFieldAt f [i; j - 1; k] ;;
      zp <- getFieldAt f [i; j; k + 1] ;; zm <- getFieldAt f [i; j; k - 1] ;;
      Ret (dadd acc (ddiv (dmul (dmul (dmul (cnorm (laplacian (f_spacing f) c xp xm yp ym zp zm)) (dq 1 2)) (hbar q)) (hbar q)) mass))
  | _ => Ret acc
  end.
(* QF:158-162 *)
Definition inner (dims : list Z) : list (list Z) :=
  match dims with
  | [a; b; c] => if (2 <? a) && (2 <? b) && (2 <? c)
                 then flat_map (fun i => flat_map (fun j => map (fun k => [i; j; k]) (zrange 1 (c - 2))) (zrange 1 (b - 2))) (zrange 1 (a - 2))
                 else []
  | _ => []
  end.
(* QF:197-201 *)
Definition potential_at (mass : sf) (f : field) (pos : list Z) (acc : sf) : outcome sf :=
  v <- getFieldAt f pos ;; Ret (dadd acc (dmul (dmul (dmul (dq 1 2) mass) (cabs v)) (cabs v))).
(* QF:149-228 *)
Definition calculateTotalEnergy (q : qparams) (t : option ptype) (f : field) : outcome sf :=
  mass <- getMass q (match t with Some k => k | None => f_type f end) ;;
  kin <- for_each (kinetic_at q mass f) (inner (f_dims f)) d0 ;;
  pot <- for_each (potential_at mass f) (positions (f_dims f)) d0 ;;
  Ret (dadd kin pot).

(* QF:375-394; the sum of the coordinates is an int *)
Definition kg_point (q : qparams) (pos : list Z) (v : cplx) : outcome cplx :=
  let s := fold_left Z.add pos 0 in
  if int_max <? s then UB UB_signed_overflow
  else
    let phase := dadd (carg v) (dmul (time_step q) (phase_rate q)) in
    let position_factor := dadd d1 (dmul (pos_amp q) (fsin (dofZ s))) in
    let dissipation := dsub d1 (dmul (damping q) (time_step q)) in
    Ret (cscale (fcos phase, fsin phase) (dmul (dmul (cabs v) position_factor) dissipation)).
(* QF:354-409 *)
Definition kg_evolve (q : qparams) (t : ptype) (f : field) : outcome field :=
  if negb (ptype_eqb (f_type f) t) then Throw E_invalid_argument else sweep (kg_point q) f.
(* QF:433-442 *)
Definition dirac_evolve (q : qparams) (t : ptype) (f : field) : field := if negb (ptype_eqb (f_type f) t) then f else f.

(* QF:485 *)
Definition clamp_coupling (c : sf) : sf := fmin (fmax c d0) d1.
(* QF:493-509 *)
Definition maxwell_pair (q : qparams) (coupling : sf) (pos : list Z) (e b : cplx) : cplx * cplx :=
  let new_e := cadd (cscale e (dsub d1 coupling)) (cscale b coupling) in
  let new_b := cadd (cscale b (dsub d1 coupling)) (cscale e coupling) in
  let co n := dmul (dq 1 10) (dofZ (nth n pos 0)) in
  let space := dadd d1 (dmul (pos_amp q) (dadd (dadd (fsin (co 0%nat)) (fcos (co 1%nat))) (fsin (co 2%nat)))) in
  let diss := dsub d1 (dmul (damping q) (time_step q)) in
  (cscale (cscale new_e space) diss, cscale (cscale new_b space) diss).
(* QF:488-513, with the two fields as they are when the loop ends or throws; the fields are two objects *)
Fixpoint maxwell_loop (q : qparams) (coupling : sf) (ps : list (list Z)) (e b : field) : field * field * outcome unit :=
  match ps with
  | [] => (e, b, Ret tt)
  | pos :: r =>
      match getFieldAt e pos, getFieldAt b pos with
      | Ret ev, Ret bv =>
          let (ne, nb) := maxwell_pair q coupling pos ev bv in
          match setFieldAt e pos ne, setFieldAt b pos nb with
          | Ret e', Ret b' => maxwell_loop q coupling r e' b'
          | Ret e', x => (e', b, obind x (fun _ => Ret tt))
          | x, _ => (e, b, obind x (fun _ => Ret tt))
          end
      | Ret _, x => (e, b, obind x (fun _ => Ret tt))
      | x, _ => (e, b, obind x (fun _ => Ret tt))
      end
  end.
(* QF:465-517 *)
Definition maxwell_evolve (q : qparams) (e b : field) : field * field * outcome unit :=
  if negb (ptype_eqb (f_type e) Photon) || negb (ptype_eqb (f_type b) Photon) then (e, b, Throw E_invalid_argument)
  else match getCoupling q Photon with
       | Ret c => maxwell_loop q (clamp_coupling c) (positions (f_dims e)) e b
       | x => (e, b, obind x (fun _ => Ret tt))
       end.

(* QM:181-207 *)
Definition createParticleField (gauss : sf -> sf -> nat -> cplx) (dims : list Z) (spacing : sf) (t : ptype) : outcome field :=
  f <- field_new 3 dims spacing t ;;
  match t with
  | Photon => initializeCoherentState d1 d0 f
  | Electron | Proton => Ret (initializeGaussian gauss d0 (dq 1 2) f)
  | _ => Ret (initializeGaussian gauss d0 d1 f)
  end.

(* QM:216-220 and 265-269 *)
Fixpoint energies (q : qparams) (fs : list field) : outcome (list sf) :=
  match fs with [] => Ret [] | f :: r => e <- calculateTotalEnergy q None f ;; es <- energies q r ;; Ret (e :: es) end.
(* QM:223-262; [fs] are distinct objects *)
Fixpoint evolve_all (q : qparams) (fs : list field) : list field * outcome unit :=
  match fs with
  | [] => ([], Ret tt)
  | f :: r =>
      match f_type f with
      | Photon =>
          match r with
          | g :: r2 => if ptype_eqb (f_type g) Photon
                       then match maxwell_evolve q f g with
                            | (f', g', Ret _) => let (r', o) := evolve_all q r2 in (f' :: g' :: r', o)
                            | (f', g', x) => (f' :: g' :: r2, x)
                            end
                       else let (r', o) := evolve_all q r in (f :: r', o)
          | [] => ([f], Ret tt)
          end
      | Electron | Proton | Positron | Muon => let (r', o) := evolve_all q r in (dirac_evolve q (f_type f) f :: r', o)
      | _ => match kg_evolve q (f_type f) f with
             | Ret f' => let (r', o) := evolve_all q r in (f' :: r', o)
             | x => (f :: r, obind x (fun _ => Ret tt))
             end
      end
  end.
Fixpoint zip_sub (a b : list sf) : list sf := match a, b with x :: r, y :: s => dsub x y :: zip_sub r s | _, _ => [] end.
(* QM:209-271: [steps] is not used *)
Definition simulateMultiParticleInteraction (fs : list field) (q : qparams) (steps : Z) : list field * outcome (list sf) :=
  match energies q fs with
  | Ret e0 => match evolve_all q fs with
              | (fs', Ret _) => (fs', e1 <- energies q fs' ;; Ret (zip_sub e1 e0))
              | (fs', x) => (fs', obind x (fun _ => Ret []))
              end
  | x => (fs, x)
  end.

(** ** free functions *)
Definition kB : sf := dq 8617333262 (10 ^ 14)%positive.
Definition eV_J : sf := dq 1602176634 (10 ^ 28)%positive.
(* QF:545-581 *)
Definition tunneling (barrier mass hb temperature : sf) : sf :=
  let thermal := dmul kB temperature in
  let barrier_J := dmul barrier eV_J in
  let hbar_J := dmul hb eV_J in
  let width := dq 2 (10 ^ 10)%positive in
  if fle barrier d0 || fle mass d0 || fle hb d0 then d0
  else
    let exponent := ddiv (dmul (dmul (dofZ (-2)) width) (sqrt_d (dmul (dmul (dofZ 2) mass) barrier_J))) hbar_J in
    let P_tunnel := fexp exponent in
    let P_thermal := fexp (ddiv (SFopp barrier) thermal) in
    let total := dsub (dadd P_tunnel P_thermal) (dmul P_tunnel P_thermal) in
    dclamp total d0 d1.
(* QF:536-543 *)
Definition tunneling_for (barrier temperature : sf) (q : qparams) (t : ptype) : outcome sf :=
  mass <- getMass q t ;; Ret (tunneling barrier mass (hbar q) temperature).
(* QF:583-607 *)
Definition zero_point (hb mass lattice temperature : sf) : sf :=
  let hbar_SI := dmul hb eV_J in
  let lattice_SI := dmul lattice (dq 1 (10 ^ 10)%positive) in
  let k := ddiv (dofZ 10) (dmul lattice_SI lattice_SI) in
  let om := sqrt_d (ddiv k mass) in
  let zp := dmul (dmul (dq 1 2) hbar_SI) om in
  let scale := ddiv d1 (dadd d1 (ddiv temperature (dofZ 100))) in
  dmul (ddiv zp eV_J) scale.
(* QF:520-534 *)
Definition correctedDefectEnergy (temperature energy : sf) (q : qparams) (t : ptype) : outcome sf :=
  mass <- getMass q t ;; Ret (dsub energy (zero_point (hbar q) mass (q_spacing q) temperature)).

(* QF:620-634: a std::set iterates in the order of the enumerators *)
Definition present {A} (m : pmap A) (t : ptype) : bool := match m t with Some _ => true | None => false end.
Definition types_to_process (d : defects) (ts : list ptype) : list ptype :=
  match ts with
  | [] => filter (fun t => present (interst d) t || present (vacs d) t || present (clus d) t) ptypes
  | _ => filter (fun t => existsb (ptype_eqb t) ts) ptypes
  end.
(* QF:652-676: the three factors and the temperature scale *)
Definition enh_cap (c : crystal) (temperature : sf) : sf := dadd d1 (ddiv (dmul kB temperature) (c_barrier c)).
Definition factors (c : crystal) (q : qparams) (temperature mass : sf) : sf * sf * sf * sf :=
  let p := tunneling (c_barrier c) mass (hbar q) temperature in
  let z := zero_point (hbar q) mass (c_const c) temperature in
  let cap := enh_cap c temperature in
  let fi := fmin (dadd d1 (dmul (dofZ 5) p)) cap in
  let fv := fmin (dadd d1 (dmul (dofZ 3) p)) cap in
  let fc := fmin (dadd d1 (ddiv (dmul (dofZ 2) z) (c_barrier c))) cap in
  let scale := if flt temperature (temp_threshold q)
               then dadd d1 (ddiv (dsub (temp_threshold q) temperature) (temp_factor q)) else d1 in
  (fi, fv, fc, scale).
Definition scale_entry (m : pmap (list sf)) (t : ptype) (x : sf) : pmap (list sf) :=
  match m t with Some l => pset m t (map (fun v => dmul v x) l) | None => m end.
(* QF:641-703 *)
Definition correct_type (c : crystal) (q : qparams) (temperature : sf) (t : ptype) (d : defects) : outcome defects :=
  mass <- getMass q t ;;
  let '(fi, fv, fc, scale) := factors c q temperature mass in
  Ret (mkD (scale_entry (interst d) t (dmul fi scale)) (scale_entry (vacs d) t (dmul fv scale)) (scale_entry (clus d) t (dmul fc scale))).
(* QF:609-706 *)
Definition applyCorrections (d : defects) (c : crystal) (q : qparams) (temperature : sf) (ts : list ptype) : outcome defects :=
  for_each (correct_type c q temperature) (types_to_process d ts) d.

(* QMH:28-59 *)
Record xparams := mkX { base_q : qparams; deco_rates : pmap sf; diss_coeffs : pmap sf }.
Definition getDeco (x : xparams) (t : ptype) : sf := match deco_rates x t with Some v => v | None => dq 1 (10 ^ 12)%positive end.
Definition getDiss (x : xparams) (t : ptype) : sf := match diss_coeffs x t with Some v => v | None => dq 1 100 end.
(* std::accumulate(.., 0.0) *)
Definition dsum (l : list sf) : sf := fold_left dadd l d0.
Definition add_entry (acc : sf) (m : pmap (list sf)) (t : ptype) : sf := match m t with Some l => dadd acc (dsum l) | None => acc end.
(* QM:18-50 *)
Definition total_defects (d : defects) (t : ptype) : sf := add_entry (add_entry (add_entry d0 (interst d) t) (vacs d) t) (clus d) t.
Definition decoherence (d : defects) (temperature : sf) (x : xparams) (t : ptype) : sf :=
  dmul (dmul (getDeco x t) (dadd d1 (ddiv temperature (dofZ 300)))) (dadd d1 (dmul (total_defects d t) (getDiss x t))).

(* QM:52-80 *)
Definition transition_raw (energy temperature hb : sf) : sf :=
  dsub d1 (fexp (ddiv (SFopp energy) (dadd (dmul kB temperature) (dmul hb (dofZ (10 ^ 15)))))).
Definition transition_prob (energy temperature : sf) (q : qparams) (t : ptype) : outcome sf :=
  _ <- getMass q t ;;
  let p := transition_raw energy temperature (hbar q) in
  let p := match t with
           | Photon => fmax d0 (dmul p (dq 3 2))
           | Electron => fmin d1 (dmul p (dq 12 10))
           | _ => p
           end in
  Ret (dclamp p d0 d1).

(* QM:82-122 *)
Definition lattice_energy (c : crystal) : sf :=
  match c_type c with
  | FCC => dadd (dofZ 15) (dmul (dq 5 2) (c_const c))
  | BCC => dadd (dofZ 10) (dmul (dofZ 3) (c_const c))
  | DIAMOND => dadd (dofZ 20) (dmul (dofZ 4) (c_const c))
  end.
Definition displacementEnergy (c : crystal) (q : qparams) (t : ptype) : outcome sf :=
  mass <- getMass q t ;;
  let base := match t with
              | Electron => dmul (lattice_energy c) (dq 1 2)
              | Proton | HeavyIon => dmul (lattice_energy c) (dq 3 2)
              | _ => lattice_energy c
              end in
  Ret (dadd base (zero_point (hbar q) mass (c_const c) (dofZ 300))).

(* std::floor *)
Definition dfloor (x : sf) : sf :=
  match x with
  | S754_finite s m e =>
      if 0 <=? e then x
      else let z := (cond_Zopp s (Z.pos m)) / 2 ^ (- e) in if z =? 0 then S754_zero s else dofZ z
  | _ => x
  end.
(* QM:141-153: vacancy, interstitial and cluster fractions *)
Definition fractions (t : ptype) : sf * sf * sf :=
  match t with
  | Electron => (dq 7 10, dq 1 4, dq 5 100)
  | HeavyIon => (dq 1 2, dq 2 10, dq 3 10)
  | _ => (dq 6 10, dq 3 10, dq 1 10)
  end.
Definition regions (count frac : sf) (r1 r2 r3 : sf) : list sf := [dmul (dmul count frac) r1; dmul (dmul count frac) r2; dmul (dmul count frac) r3].
(* QM:124-179 *)
Definition simulateCascade (pka displacement : sf) (t : ptype) : defects :=
  let d := default_defects in
  if flt displacement pka then
    let count := dfloor (ddiv (dmul (dq 8 10) pka) displacement) in
    let '(v, i, c) := fractions t in
    mkD (pset (interst d) t (regions count i (dq 4 10) (dq 4 10) (dq 2 10)))
        (pset (vacs d) t (regions count v (dq 6 10) (dq 3 10) (dq 1 10)))
        (pset (clus d) t (regions count c (dq 7 10) (dq 2 10) (dq 1 10)))
  else d.

(** ** QuantumEnhancedRadiation *)
(* QEH:23-31 *)
Inductive dtype := SRAM_6T | SRAM_8T | DRAM | FLASH_SLC | FLASH_MLC | MRAM | FRAM.
(* QEH:37-44; the dielectric constant is never read *)
Record material := mkM { bandgap : sf; mass_ratio : sf; lattice_nm : sf; crit_fc : sf; temp_k : sf }.
Definition silicon : material := mkM (dq 112 100) (dq 26 100) (dq 543 1000) (dofZ 15) (dofZ 300).
(* QE:16-33 *)
Definition er_params (m : material) : qparams :=
  mkQ hbar_ev (pset default_masses HeavyIon (dmul (dofZ 12000) (dq 1782662 (10 ^ 42)%positive))) default_couplings
      (dmul (lattice_nm m) (dq 1 (10 ^ 9)%positive)) (dq 1 (10 ^ 18)%positive) (dofZ (10 ^ 15)) (dofZ (10 ^ 15)) (dq 1 1000) (temp_k m) (dofZ 100) (dq 1 100).
Definition proton_mass : sf := dq 16726219 (10 ^ 34)%positive.
Definition er_tunnel (barrier temperature : sf) : sf := tunneling barrier proton_mass hbar_ev temperature.
(* QE:322-355 *)
Definition base_efficiency (t : dtype) : sf :=
  match t with SRAM_6T | SRAM_8T => dq 9 10 | DRAM => dq 7 10 | FLASH_SLC | FLASH_MLC => dq 6 10 | MRAM | FRAM => dq 95 100 end.
Definition collectionEfficiency (m : material) (charge : sf) (t : dtype) : sf :=
  let b := base_efficiency t in
  let b := if flt charge (dmul (crit_fc m) (dq 1 10))
           then dadd b (dmul (er_tunnel (dmul (bandgap m) (dq 1 2)) (temp_k m)) (dq 1 10)) else b in
  dclamp b (dq 1 10) d1.
(* QE:59-75 *)
Definition add_all (acc : sf) (m : pmap (list sf)) (t : ptype) : sf := match m t with Some l => fold_left dadd l acc | None => acc end.
(* QE:35-87: the particle's energy is not used *)
Definition chargeDeposition (m : material) (energy letv : sf) (t : ptype) : outcome sf :=
  let classical := dmul letv (dq 278 1000) in
  let c := mkC DIAMOND (dmul (lattice_nm m) (dq 1 (10 ^ 10)%positive)) (bandgap m) in
  let d := mkD (pset (interst default_defects) t [dmul classical (dq 3 10)]) (pset (vacs default_defects) t [dmul classical (dq 5 10)])
               (pset (clus default_defects) t [dmul classical (dq 2 10)]) in
  d' <- applyCorrections d c (er_params m) (temp_k m) [t] ;;
  let charge := add_all (add_all (add_all d0 (interst d') t) (vacs d') t) (clus d') t in
  Ret (dmul charge (collectionEfficiency m charge SRAM_6T)).
(* QE:89-107 *)
Definition criticalCharge (m : material) (base temperature : sf) : sf :=
  let p := er_tunnel (bandgap m) temperature in
  let tf := dsub d1 (dmul (dq 3 10) p) in
  let cf := dadd d1 (ddiv (dsub temperature (dofZ 300)) (dofZ 1000)) in
  fmax (dmul (dmul base tf) cf) (dmul base (dq 1 2)).
(* QE:113-136 *)
Definition base_sensitivity (t : dtype) : sf :=
  match t with SRAM_6T => d1 | SRAM_8T => dq 7 10 | DRAM => dq 15 10 | FLASH_SLC => dq 3 10 | FLASH_MLC => dq 8 10 | MRAM => dq 1 10 | FRAM => dq 2 10 end.
Definition M_PI : sf := dq 314159265358979323846 (10 ^ 20)%positive.
(* QE:109-155 *)
Definition size_factor (m : material) (feature : sf) : sf :=
  if flt feature (dofZ 100) then
    let f := dmul feature (dq 1 (10 ^ 9)%positive) in
    let e := ddiv (dmul (dmul (dmul hbar_ev hbar_ev) M_PI) M_PI)
                  (dmul (dmul (dmul (dmul (dofZ 2) (mass_ratio m)) (dq 9109 (10 ^ 34)%positive)) f) f) in
    dadd d1 (ddiv (ddiv e eV_J) (bandgap m))
  else d1.
Definition deviceSensitivity (m : material) (t : dtype) (feature : sf) : sf := dmul (base_sensitivity t) (size_factor m feature).
(* QE:161-189 *)
Definition device_factor (t : dtype) : sf :=
  match t with SRAM_6T => d1 | SRAM_8T => dq 14 10 | DRAM => dq 8 10 | FLASH_SLC => dofZ 5 | FLASH_MLC => dofZ 2 | MRAM => dofZ 10 | FRAM => dofZ 8 end.
(* QE:157-215 *)
Definition bitFlipProbability (m : material) (charge : sf) (t : dtype) (temperature : sf) : sf :=
  let critical := criticalCharge m (dmul (crit_fc m) (device_factor t)) temperature in
  if fle charge d0 || fle critical d0 then d0
  else
    let ratio := ddiv charge critical in
    let p := dsub d1 (fexp (SFopp (fpow2 (ddiv ratio d1)))) in
    let p := if flt ratio (dq 1 10) then dadd p (dmul (er_tunnel (bandgap m) temperature) (dq 1 10)) else p in
    dclamp p d0 d1.
(* static_cast<uint32_t>(double) *)
Definition to_u32 (x : sf) : outcome N :=
  match trunc_sf x with Some z => if (0 <=? z) && (z <? 2 ^ 32) then Ret (Z.to_N z) else UB UB_float_to_int | None => UB UB_float_to_int end.
(* std::ceil *)
Definition dceil (x : sf) : sf := SFopp (dfloor (SFopp x)).
(* QE:284-300 *)
Definition clustering (t : ptype) : sf := match t with Proton => d1 | Neutron => dq 12 10 | HeavyIon => dofZ 3 | _ => dq 15 10 end.
(* QE:270-307 *)
Definition mbuSize (m : material) (charge : sf) (t : ptype) : outcome N :=
  let threshold := dmul (crit_fc m) (dofZ 2) in
  if flt charge threshold then Ret 1%N
  else n <- to_u32 (dceil (dmul (ddiv charge threshold) (clustering t))) ;; Ret (N.max 1 (N.min 8 n)).

(** the numbers of one impact: the probability draw, the byte and the bit *)
Record draw := mkDraw { d_prob : sf; d_byte : N; d_bit : N }.
(* QE:252-256: [k] bits from [start] on *)
Fixpoint flip_bits (b start : N) (k : nat) : N := match k with O => b | S j => flip_bits (N.lxor b (2 ^ start)) (start + 1) j end.
(* QE:243-258 *)
Definition impact (mbu : N) (p : sf) (d : draw) (s : list N * N) : outcome (list N * N) :=
  if flt (d_prob d) p then
    let k := N.min mbu (8 - d_bit d) in
    match nth_error (fst s) (N.to_nat (d_byte d)) with
    | Some b => Ret (set_nth (fst s) (N.to_nat (d_byte d)) (flip_bits b (d_bit d) (N.to_nat k)), ((snd s + k) mod 2 ^ 32)%N)
    | None => UB UB_out_of_bounds
    end
  else Ret s.
Definition impacts_of (p : sf) (size duration : N) : outcome N :=
  n <- to_u32 (dmul (dmul (dmul p (dofZ (Z.of_N size))) (ddiv (dofZ (Z.of_N duration)) (dofZ 1000))) (dq 1 100)) ;; Ret (N.max 1 n).
(* QE:217-268: [mem] is the buffer, None for a null pointer; [rng] gives the numbers of the i-th impact *)
Definition applyRadiation (m : material) (rng : nat -> draw) (mem : option (list N)) (energy letv : sf) (t : ptype) (dev : dtype) (duration : N)
  : outcome (option (list N) * N) :=
  match mem with
  | None => Ret (None, 0%N)
  | Some [] => Ret (Some [], 0%N)
  | Some bytes =>
      charge <- chargeDeposition m energy letv t ;;
      let p := bitFlipProbability m charge dev (temp_k m) in
      mbu <- mbuSize m charge t ;;
      n <- impacts_of p (N.of_nat (length bytes)) duration ;;
      r <- for_each (fun i s => impact mbu p (rng i) s) (seq 0 (N.to_nat n)) (bytes, 0%N) ;;
      Ret (Some (fst r), snd r)
  end.
End Lib.
