(** Property C461: what a physics simulator is set to after any history of settings and runs. *)
From Coq Require Import List NArith ZArith Bool Arith Lia SpecFloat.
Import ListNotations.
From Verif Require Import Outcome Words Floats Qft_Model Qft_Spec Phys_Model Phys_Spec EnvB_Props Phys_Props.
Local Open Scope outcome_scope.
Local Open Scope Z_scope.

(** runs of whole missions and doses, which change the environment (C440), are left out *)
Definition keeps_place (c : pcall) : bool := match c with PMission | PTid _ => false | _ => true end.
(** the environment last set, or the first one of the trajectory last given, whichever came later *)
Definition place_after (e : place) (cs : list pcall) : place :=
  fold_left (fun e c => match c with PEnv x => x | PTraj t => hd e (environments t) | _ => e end) cs e.
Definition shield_after (x : sf) (cs : list pcall) : sf := fold_left (fun x c => match c with PShield y => y | _ => x end) cs x.
Definition traj_after (t : trajectory) (cs : list pcall) : trajectory := fold_left (fun t c => match c with PTraj y => y | _ => t end) cs t.

Section H.
Variables (fexp : sf -> sf) (fpow : sf -> sf -> sf) (G : Type) (poisson : sf -> G -> Z * G) (uniform : Z -> Z -> G -> Z * G).
Lemma prun_inv cs : forall s g s' g', forallb keeps_place cs = true -> prun fexp fpow G poisson uniform (s, g) cs = Ret (s', g') ->
  p_bits s' = p_bits s /\ p_word s' = p_word s /\ p_place s' = place_after (p_place s) cs /\ p_shield s' = shield_after (p_shield s) cs /\ p_traj s' = traj_after (p_traj s) cs.
Proof.
  induction cs as [|c r IH]; intros s g s' g' K H; [cbn [prun] in H; injection H as <- _; repeat split|]. cbn [forallb] in K. apply andb_prop in K. destruct K as [K1 K2]. cbn [prun] in H.
  destruct (pstep fexp fpow G poisson uniform (s, g) c) as [[s1 g1]| | |] eqn:Q; try discriminate H. cbn [obind] in H. specialize (IH s1 g1 s' g' K2 H). destruct IH as (-> & -> & -> & -> & ->).
  unfold place_after, shield_after, traj_after. cbn [fold_left]. unfold pstep in Q. destruct c; try discriminate K1.
  - injection Q as <- _. repeat split.
  - injection Q as <- _. repeat split.
  - injection Q as <- _. repeat split.
  - unfold set_trajectory in Q. destruct (environments t) as [|e l] eqn:T; [discriminate Q|]. cbn [obind] in Q. injection Q as <- _. cbn [p_bits p_word p_place p_shield p_traj hd]. repeat split.
  - destruct (simulate_period fexp fpow G poisson uniform s days g) as [x| | |]; try discriminate Q. cbn [obind] in Q. injection Q as <- _. repeat split.
Qed.
Lemma prun_solar cs : forall s g s' g', prun fexp fpow G poisson uniform (s, g) cs = Ret (s', g') -> forallb keeps_place cs = true ->
  Forall (fun c => match c with PSolar _ => False | _ => True end) cs -> p_solar s' = p_solar s.
Proof.
  induction cs as [|c r IH]; intros s g s' g' H K F; [cbn [prun] in H; injection H as <- _; reflexivity|]. cbn [forallb] in K. apply andb_prop in K. destruct K as [K1 K2]. cbn [prun] in H. inversion F as [|? ? F1 F2]; subst.
  destruct (pstep fexp fpow G poisson uniform (s, g) c) as [[s1 g1]| | |] eqn:Q; try discriminate H. cbn [obind] in H. rewrite (IH s1 g1 s' g' H K2 F2). unfold pstep in Q. destruct c; try discriminate K1; try contradiction.
  - injection Q as <- _. reflexivity.
  - injection Q as <- _. reflexivity.
  - unfold set_trajectory in Q. destruct (environments t) as [|e l] eqn:T; [discriminate Q|]. cbn [obind] in Q. injection Q as <- _. reflexivity.
  - destruct (simulate_period fexp fpow G poisson uniform s days g) as [x| | |]; try discriminate Q. cbn [obind] in Q. injection Q as <- _. reflexivity.
Qed.
End H.

Theorem C461_settings : forall fexp fpow G (poisson : sf -> G -> Z * G) uniform bits word shield e l durations g0 cs s g,
  prun fexp fpow G poisson uniform (match psim_new bits word shield (mkT (e :: l) durations) with Ret s0 => s0 | _ => mkP 0 0 d0 Earth_LEO LEO d0 end, g0) cs = Ret (s, g) ->
  (exists s0, psim_new bits word shield (mkT (e :: l) durations) = Ret s0) /\
  (forallb keeps_place cs = true ->
     p_bits s = bits /\ p_word s = word /\ p_place s = place_after e cs /\ p_shield s = shield_after shield cs /\ p_traj s = traj_after (mkT (e :: l) durations) cs /\
     (Forall (fun c => match c with PSolar _ => False | _ => True end) cs -> p_solar s = dq 5 10)).
Proof.
  intros fexp fpow G poisson uniform bits word shield e l durations g0 cs s g H. unfold psim_new in *. cbn [environments] in *. split; [eexists; reflexivity|]. intros K. pose proof (prun_inv _ _ _ _ _ _ _ _ _ _ K H) as (-> & -> & -> & -> & ->). split; [reflexivity|]. split; [reflexivity|]. split; [reflexivity|]. split; [reflexivity|]. split; [reflexivity|].
  intros F. rewrite (prun_solar _ _ _ _ _ _ _ _ _ _ H K F). reflexivity.
Qed.
Example C461_nonvacuous : exists s g, prun stair_exp keep_pow nat one_draw most (match psim_new 1024 8 d1 Mars_Mission with Ret s0 => s0 | _ => mkP 0 0 d0 Earth_LEO LEO d0 end, 0%nat) [PEnv JUPITER; PTraj Europa_Mission; PShield (dofZ 3)] = Ret (s, g) /\
  p_place s = hd JUPITER (environments Europa_Mission) /\ environments Mars_Mission <> [] /\ p_shield s = dofZ 3.
Proof. do 2 eexists. split; [reflexivity|]. split; [reflexivity|]. split; [discriminate|reflexivity]. Qed.
Print Assumptions C461_settings.
