(** Votes and executions (no float arithmetic). *)
From Coq Require Import String List NArith ZArith Bool SpecFloat Lia.
Import ListNotations.
From Verif Require Import Outcome Words Floats Approx_Model Bits_Model Strat_Model Strat_Spec.
Local Open Scope Z_scope.

Lemma run3_calls {V S} (f : @op V S) s r1 r2 r3 s' : three_calls f s r1 r2 r3 s' <-> run3 f s = Ret (r1, r2, r3, s').
Proof.
  unfold three_calls, run3. split.
  - intros (a & b & E1 & E2 & E3). rewrite E1. cbn [obind snd]. rewrite E2. cbn [obind snd]. rewrite E3. reflexivity.
  - destruct (f s) as [[v a]| | |] eqn:E1; cbn [obind snd fst]; try discriminate.
    destruct (f a) as [[v2 b]| | |] eqn:E2; cbn [obind snd fst]; try discriminate.
    destruct (f b) as [[v3 c]| | |] eqn:E3; cbn [obind snd fst]; try discriminate.
    intros H. injection H as -> -> -> ->. exists a, b. auto.
Qed.
Definition agree3 {V} (K : kind V) (r1 r2 r3 : V) : bool := eqv K r1 r2 && eqv K r1 r3.
Definition some_pair {V} (K : kind V) (r1 r2 r3 : V) : bool := eqv K r1 r2 || eqv K r1 r3 || eqv K r2 r3.

Section Plain.
Context {V S : Type}.
Variable K : kind V.
Ltac vote := repeat match goal with |- context [if ?b then _ else _] => destruct b eqn:?; cbn [andb orb negb] in * | |- context [?a && ?b] => destruct a eqn:?; cbn [andb orb negb] in * end.

Lemma plain_value c v r1 r2 r3 : self_equal K v -> two_of v r1 r2 r3 -> eqv K (value (plain_vote K c r1 r2 r3)) v = true.
Proof.
  unfold self_equal, plain_vote. intros E [[-> ->]|[[-> ->]|[-> ->]]]; rewrite ?E; cbn [andb].
  - destruct (eqv K v r3); exact E.
  - destruct (eqv K v r2); exact E.
  - destruct (eqv K r1 v) eqn:Q; cbn [andb]; exact Q || exact E.
Qed.
Lemma plain_flags c r1 r2 r3 : let r := plain_vote K c r1 r2 r3 in
  detected r = Some (negb (agree3 K r1 r2 r3)) /\ corrected r = Some (negb (agree3 K r1 r2 r3) && some_pair K r1 r2 r3) /\
  confidence r = (if agree3 K r1 r2 r3 then dofZ 1 else if some_pair K r1 r2 r3 then c else dlit 33 100) /\
  (value r = r1 \/ value r = r2).
Proof. unfold plain_vote, agree3, some_pair. destruct (eqv K r1 r2), (eqv K r1 r3), (eqv K r2 r3); cbn [andb orb negb value detected corrected confidence agreeing undecided]; auto. Qed.
Lemma exec_basic (f : @op V S) s r1 r2 r3 s' : three_calls f s r1 r2 r3 s' -> execute K S_basic f s = Ret (basic_vote K r1 r2 r3, s', S_basic).
Proof. intros H. apply run3_calls in H. unfold execute. rewrite H. reflexivity. Qed.
Lemma exec_hybrid (f : @op V S) s r1 r2 r3 s' d : delay_ok d -> three_calls f s r1 r2 r3 s' -> execute K (S_hybrid d) f s = Ret (hybrid_vote K r1 r2 r3, s', S_hybrid d).
Proof.
  intros [z D] (a & b & E1 & E2 & E3). unfold execute. rewrite E1. cbn [obind snd fst]. rewrite D. cbn [obind]. rewrite E2. cbn [obind snd fst]. rewrite E3. reflexivity.
Qed.
Lemma exec_stuck (f : @op V S) s r1 r2 r3 s' : three_calls f s r1 r2 r3 s' -> execute K S_stuck f s = Ret (stuck_vote K r1 r2 r3, s', S_stuck).
Proof. intros H. apply run3_calls in H. unfold execute. rewrite H. reflexivity. Qed.
Lemma exec_enhanced (f : @op V S) s r1 r2 r3 s' : three_calls f s r1 r2 r3 s' ->
  execute K S_enhanced f s = obind (enhanced_vote K r1 r2 r3) (fun r => Ret (r, s', S_enhanced)).
Proof. intros H. apply run3_calls in H. unfold execute. rewrite H. reflexivity. Qed.
Lemma exec_health (f : @op V S) s r1 r2 r3 s' h : three_calls f s r1 r2 r3 s' ->
  execute K (S_health h) f s = Ret (fst (health_vote K h r1 r2 r3), s', S_health (snd (health_vote K h r1 r2 r3))).
Proof. intros H. apply run3_calls in H. unfold execute. rewrite H. cbn [obind]. destruct (health_vote K h r1 r2 r3). reflexivity. Qed.
Lemma exec_health_inv (f : @op V S) s h r s' x : execute K (S_health h) f s = Ret (r, s', x) ->
  exists r1 r2 r3, three_calls f s r1 r2 r3 s' /\ r = fst (health_vote K h r1 r2 r3) /\ x = S_health (snd (health_vote K h r1 r2 r3)).
Proof.
  unfold execute. destruct (run3 f s) as [[[[r1 r2] r3] s'']| | |] eqn:E; cbn [obind]; try discriminate.
  destruct (health_vote K h r1 r2 r3) as [a b] eqn:Q. intros H. injection H as -> -> <-. exists r1, r2, r3. rewrite Q. split; [apply run3_calls; exact E|]. split; reflexivity.
Qed.

Lemma enhanced_value v r1 r2 r3 k1 k2 k3 : chk K r1 = Ret k1 -> chk K r2 = Ret k2 -> chk K r3 = Ret k3 -> self_equal K v -> two_of v r1 r2 r3 ->
  exists r, enhanced_vote K r1 r2 r3 = Ret r /\ eqv K (value r) v = true.
Proof.
  intros C1 C2 C3 E T. unfold enhanced_vote. rewrite C1, C2, C3. cbn [obind]. eexists. split; [reflexivity|]. unfold self_equal in E.
  destruct T as [[-> ->]|[[-> ->]|[-> ->]]]; rewrite ?E; cbn [andb].
  - destruct (eqv K v r3); [destruct ((k1 =? k2) && (k1 =? k3))|]; exact E.
  - destruct (eqv K v r2); [destruct ((k1 =? k2) && (k1 =? k3))|]; exact E.
  - destruct (eqv K r1 v) eqn:Q; cbn [andb]; [destruct ((k1 =? k2) && (k1 =? k3)); exact Q|exact E].
Qed.
Lemma enhanced_silent v k : self_equal K v -> chk K v = Ret k -> enhanced_vote K v v v = Ret (mkR v (dofZ 1) None None).
Proof. unfold self_equal. intros E C. unfold enhanced_vote. rewrite C. cbn [obind]. rewrite E, Z.eqb_refl. reflexivity. Qed.
Lemma enhanced_disagree r1 r2 r3 r : enhanced_vote K r1 r2 r3 = Ret r -> agree3 K r1 r2 r3 = false -> detected r = Some true /\ corrected r = Some (some_pair K r1 r2 r3).
Proof.
  unfold enhanced_vote, agree3, some_pair. destruct (chk K r1); cbn [obind]; try discriminate. destruct (chk K r2); cbn [obind]; try discriminate. destruct (chk K r3); cbn [obind]; try discriminate.
  intros H A. injection H as <-. rewrite A. destruct (eqv K r1 r2), (eqv K r1 r3), (eqv K r2 r3); cbn [andb orb negb detected corrected agreeing undecided] in *; auto; try discriminate.
  destruct (a =? a0); [auto|]. destruct (a =? a1); [auto|]. destruct (a0 =? a1); auto.
Qed.

Lemma stuck_value v r1 r2 r3 : self_equal K v -> stuck K v = false -> two_of v r1 r2 r3 -> eqv K (value (stuck_vote K r1 r2 r3)) v = true.
Proof.
  unfold self_equal, stuck_vote. intros E N [[-> ->]|[[-> ->]|[-> ->]]]; rewrite ?N, ?E; cbn [negb].
  - destruct (stuck K r3); cbn [negb]; [exact E|]. change (1 + 1 + 1 =? 3) with true. cbv iota. destruct (eqv K v r3); exact E.
  - destruct (stuck K r2); cbn [negb]; [exact E|]. change (1 + 1 + 1 =? 3) with true. cbv iota. destruct (eqv K v r2); exact E.
  - destruct (stuck K r1); cbn [negb]; [exact E|]. change (1 + 1 + 1 =? 3) with true. cbv iota. destruct (eqv K r1 v) eqn:Q; cbn [andb]; [exact Q|exact E].
Qed.
Lemma stuck_wrong v x : stuck K v = true -> stuck K x = false ->
  stuck_vote K v v x = agreeing x (dlit 6 10) /\ stuck_vote K v x v = agreeing x (dlit 6 10) /\ stuck_vote K x v v = agreeing x (dlit 6 10).
Proof. intros A B. unfold stuck_vote. rewrite A, B. cbn [negb]. repeat split; reflexivity. Qed.
Lemma stuck_all v : stuck K v = true -> stuck_vote K v v v = undecided (fix3 K v v v) (dlit 2 10).
Proof. intros A. unfold stuck_vote. rewrite A. reflexivity. Qed.
Lemma stuck_clean v : self_equal K v -> stuck K v = false -> stuck_vote K v v v = mkR v (dofZ 1) (Some false) (Some false).
Proof. unfold self_equal. intros E A. unfold stuck_vote. rewrite A, E. reflexivity. Qed.
End Plain.

Ltac bits_eq := apply Z.bits_inj; let n := fresh in intro n; rewrite ?Z.lor_spec, ?Z.land_spec; repeat match goal with |- context [Z.testbit ?a ?m] => destruct (Z.testbit a m) end; reflexivity.
Lemma maj_same a : Z.lor (Z.lor (Z.land a a) (Z.land a a)) (Z.land a a) = a.
Proof. rewrite Z.land_diag, !Z.lor_diag. reflexivity. Qed.
Lemma kint_stuck v : stuck kint v = true <-> v = 0 \/ v = 2 ^ 31 - 1.
Proof. cbn [stuck kint]. unfold imax32. rewrite orb_true_iff, !Z.eqb_eq. reflexivity. Qed.
Lemma kint_all_stuck r1 r2 r3 v : stuck kint r1 = true -> stuck kint r2 = true -> stuck kint r3 = true -> two_of v r1 r2 r3 ->
  stuck_vote kint r1 r2 r3 = undecided v (dlit 2 10).
Proof.
  intros A B C T. unfold stuck_vote. rewrite A, B, C. cbn [negb]. change (0 + 0 + 0 =? 3) with false. change (0 + 0 + 0 =? 2) with false. change (0 + 0 + 0 =? 1) with false. cbv iota. f_equal.
  cbn [fix3 kint]. destruct T as [[-> ->]|[[-> ->]|[-> ->]]].
  - rewrite Z.land_diag. bits_eq.
  - bits_eq.
  - bits_eq.
Qed.
