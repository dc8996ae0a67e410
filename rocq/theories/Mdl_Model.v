(** Model of IM = include/rad_ml/inference/model.hpp (RadiationTolerantModel) with the scrubber of CS =
    include/rad_ml/core/memory/memory_scrubber.hpp that it owns: one thread that owns the model and calls its methods one after the other, and the
    scrubber's worker thread, interleaved in any way.  Simplifications: one scrubbing cycle, that is one call of repair(), is one step, and so is
    joinable() with join(); the destructor of the derived class is one step; the interval is left out, as a sleep may last any number of steps. *)
From Coq Require Import List Bool Arith.
Import ListNotations.
From Verif Require Import Scrub_Model.

(** what the owner does: enableAutoScrubbing, disableAutoScrubbing, runInference, delete *)
Inductive mop := MEnable | MDisable | MInfer | MDestroy.
Inductive mpc := P0 | P1 | P2 | P3.
(** the whole object, its base class part only (the derived destructor has run, repair() is pure), nothing *)
Inductive mobj := Whole | BasePart | Gone.
(* IM:87-88; a scrubber is its running_ flag and its worker (CS:139-144) *)
Record mstate := mkM { m_obj : mobj; m_sc : option (bool * wpc); m_prog : list mop; m_pc : mpc; m_aborted : bool }.
Inductive mev := EvCall (o : mop) | EvDone (o : mop) | EvRepair | EvPureCall.
Definition model_new (prog : list mop) : mstate := mkM Whole None prog P0 false.
(* CS:139-144, 116-122 with the callback of IM:66-72; calling a pure virtual function ends the program *)
Definition scrub_thread (s : mstate) : option (mstate * list mev) :=
  match m_sc s with
  | Some (r, WCheck) => Some (mkM (m_obj s) (Some (r, if r then WScrub else WExit)) (m_prog s) (m_pc s) false, [])
  | Some (r, WScrub) =>
      match m_obj s with
      | Whole => Some (mkM (m_obj s) (Some (r, WSleep)) (m_prog s) (m_pc s) false, [EvRepair])
      | _ => Some (mkM (m_obj s) (Some (r, WScrub)) (m_prog s) (m_pc s) true, [EvPureCall])
      end
  | Some (r, WSleep) => Some (mkM (m_obj s) (Some (r, WCheck)) (m_prog s) (m_pc s) false, [])
  | _ => None
  end.
Definition owner (s : mstate) : option (mstate * list mev) :=
  let go sc pc ev := Some (mkM (m_obj s) sc (m_prog s) pc false, ev) in
  match m_prog s, m_pc s with
  | [], _ => None
  | o :: _, P0 => go (m_sc s) P1 [EvCall o]
  (* IM:64-74: the assignment to scrubber_ destroys the old scrubber: stop() and join (CS:33-35, 102-111); then the new one is started *)
  | MEnable :: r, P1 => match m_sc s with None => go None P3 [] | Some (_, w) => go (Some (false, w)) P2 [] end
  | MEnable :: r, P2 => match m_sc s with Some (_, WExit) => go None P3 [] | _ => None end
  | MEnable :: r, P3 => Some (mkM (m_obj s) (Some (true, WCheck)) r P0 false, [EvDone MEnable])
  (* IM:79-84 *)
  | MDisable :: r, P1 => match m_sc s with None => Some (mkM (m_obj s) None r P0 false, [EvDone MDisable]) | Some (_, w) => go (Some (false, w)) P2 [] end
  | MDisable :: r, _ => match m_sc s with Some (_, WExit) => Some (mkM (m_obj s) None r P0 false, [EvDone MDisable]) | _ => None end
  (* IM:37-42 *)
  | MInfer :: r, _ => Some (mkM (m_obj s) (m_sc s) r P0 false, [EvDone MInfer])
  (* IM:23: the derived destructor, then the member scrubber_ *)
  | MDestroy :: r, P1 => Some (mkM BasePart (m_sc s) (m_prog s) P2 false, [])
  | MDestroy :: r, P2 => match m_sc s with None => Some (mkM Gone None [] P0 false, [EvDone MDestroy]) | Some (_, w) => go (Some (false, w)) P3 [] end
  | MDestroy :: r, P3 => match m_sc s with Some (_, WExit) => Some (mkM Gone None [] P0 false, [EvDone MDestroy]) | _ => None end
  end.
Inductive mwho := Owner | Scrubber.
Definition model_step (k : mwho) (s : mstate) : option (mstate * list mev) :=
  if m_aborted s then None else match k with Owner => owner s | Scrubber => scrub_thread s end.
(** a schedule: who acts next *)
Fixpoint model_run (sch : list mwho) (s : mstate) : option (mstate * list mev) :=
  match sch with
  | [] => Some (s, [])
  | k :: r => match model_step k s with
              | Some (s1, e1) => match model_run r s1 with Some (s2, e2) => Some (s2, e1 ++ e2) | None => None end
              | None => None end
  end.
