(** C171-C184: algorithmic diversity (advanced/algorithmic_diversity.hpp). *)
From Coq Require Import String List NArith ZArith Bool SpecFloat Reals Lia Lra.
Import ListNotations.
From Verif Require Import Outcome Words Floats FloatsR HealthFloat Div_Model Div_Spec Div_Proofs Div2_Proofs Div3_Proofs Div4_Proofs.
Local Open Scope string_scope.
Local Open Scope nat_scope.

(** Concrete objects: implementations "a", "b", ... *)
Definition u02 : sf := dlit 2 10.
Definition u03 : sf := dlit 3 10.
Definition u01 : sf := dlit 1 10.
Lemma unit_of x : okd x -> fle (dofZ 0) x = true -> fle x (dofZ 1) = true -> unit_score x.
Proof.
  intros O A B. destruct (RMA3_Proofs.ofZ_ex 0 eq_refl) as [O0 R0]. destruct (RMA3_Proofs.ofZ_ex 1 eq_refl) as [O1 R1]. split; [exact O|].
  pose proof (proj1 (fle_d _ _ O0 O) A). pose proof (proj1 (fle_d _ _ O O1) B). lra.
Qed.
Ltac us := apply unit_of; [split; vm_compute; reflexivity|vm_compute; reflexivity|vm_compute; reflexivity].
Fixpoint registered (l : list (string * nat * sf)) (s : div) : div := match l with [] => s | (n, f, i) :: r => registered r (add_impl s n f i) end.
Lemma registered_reachable l : forall s, reachable s -> Forall (fun x => unit_score (snd x)) l -> reachable (registered l s).
Proof. induction l as [|[[n f] i] r IH]; intros s H F; [exact H|]. cbn [registered]. apply IH; [|exact (Forall_inv_tail F)]. apply (R_step s (Add n f i)); [exact H|exact (Forall_inv F)|reflexivity]. Qed.
Definition three : div := registered [("c", 3, dofZ 1); ("a", 1, dofZ 1); ("b", 2, dofZ 1)] div_new.
Lemma three_reachable : reachable three.
Proof. apply registered_reachable; [constructor|]. repeat (apply Forall_cons; [us|]). constructor. Qed.
(* a says 7, b says 5, c says 5; b throws; all throw *)
Definition says (x y z : answer) : string -> nat -> answer := fun n _ => if String.eqb n "a" then x else if String.eqb n "b" then y else z.
Definition boom : answer := Fails E_domain_error.
Definition unheard : string -> nat -> answer := fun _ _ => boom.

Theorem C171_scores : forall s n, reachable s -> okd (reliability s n) /\ (0 <= R (reliability s n) <= 1)%R.
Proof. intros s n H. exact (reliability_unit s n (reachable_inv s H)). Qed.
Example C171_nonvacuous : exists s, update three "a" false = Ret s /\ reachable s /\ reliability s "a" = dlit 99 100 /\ reliability s "b" = dofZ 1.
Proof.
  exists (match update three "a" false with Ret s => s | _ => three end). assert (E : update three "a" false = Ret (match update three "a" false with Ret s => s | _ => three end)) by (vm_compute; reflexivity).
  split; [exact E|]. split; [apply (R_step three (Update "a" false)); [apply three_reachable|exact I|exact E]|]. split; vm_compute; reflexivity.
Qed.

Theorem C172_weighted_plurality : forall s ans again, reachable s -> 0 < hsize s -> (exists r, voters s ans r <> []) ->
  exists s' r, execute s ans again = Ret (s', Value r) /\ winner s ans r.
Proof. intros s ans again H P V. destruct (execute_winner s ans again (reachable_inv s H) P V) as (r & E & W). eauto. Qed.
Example C172_nonvacuous : voters three (says (Gives 7) (Gives 5) boom) 5 <> [] /\ exists s', execute three (says (Gives 7) (Gives 5) boom) unheard = Ret (s', Value 5).
Proof. split; [vm_compute; discriminate|]. eexists. vm_compute. reflexivity. Qed.

Theorem C173_plurality : forall s ans again r, reachable s -> 0 < hsize s -> Forall (fun n => reliability s n = dofZ 1) (names s) -> (Z.of_nat (length (names s)) < 2 ^ 53)%Z ->
  (forall r', r' <> r -> length (voters s ans r') < length (voters s ans r)) -> exists s', execute s ans again = Ret (s', Value r).
Proof.
  intros s ans again r H P F B M. pose proof (reachable_inv s H) as I. apply default_plurality; try assumption.
  - apply Forall_forall. intros x Hx. rewrite Forall_forall in F. specialize (F (nm x) (in_map nm _ _ Hx)). unfold reliability in F. rewrite (ord_find _ x (proj1 I) Hx) in F. exact F.
  - unfold names in B. rewrite map_length in B. exact B.
Qed.
Example C173_nonvacuous : Forall (fun n => reliability three n = dofZ 1) (names three) /\ length (voters three (says (Gives 7) (Gives 5) (Gives 5)) 5) = 2 /\
  length (voters three (says (Gives 7) (Gives 5) (Gives 5)) 7) = 1 /\ exists s', execute three (says (Gives 7) (Gives 5) (Gives 5)) unheard = Ret (s', Value 5).
Proof. split; [repeat (apply Forall_cons; [vm_compute; reflexivity|]); constructor|]. split; [vm_compute; reflexivity|]. split; [vm_compute; reflexivity|]. eexists. vm_compute. reflexivity. Qed.

(* one implementation with reliability 1 against three with 0.3 *)
Definition lone : div := registered [("a", 1, dofZ 1); ("b", 2, u03); ("c", 3, u03); ("d", 4, u03)] div_new.
Theorem C174_majority_refuted : exists s ans, reachable s /\ hsize s = 10 /\ length (names s) = 4 /\ length (live s) = 4 /\ length (voters s ans 5) = 3 /\
  (forall again, exists s', execute s ans again = Ret (s', Value 7)).
Proof.
  exists lone, (says (Gives 7) (Gives 5) (Gives 5)). split; [apply registered_reachable; [constructor|]; repeat (apply Forall_cons; [us|]); constructor|].
  split; [reflexivity|]. split; [reflexivity|]. split; [vm_compute; reflexivity|]. split; [vm_compute; reflexivity|]. intros again. eexists. vm_compute. reflexivity.
Qed.
Theorem C174_heaviest_partial : forall s ans again r, reachable s -> 0 < hsize s -> voters s ans r <> [] ->
  (forall r', r' <> r -> voters s ans r' <> [] -> (R (backing s ans r') < R (backing s ans r))%R) -> exists s', execute s ans again = Ret (s', Value r).
Proof.
  intros s ans again r H P V M. destruct (execute_winner s ans again (reachable_inv s H) P (ex_intro _ r V)) as (r1 & E & [N1 W]). rewrite E. destruct (Z.eq_dec r1 r) as [->|D]; [eauto|].
  destruct (W r V) as [L _]. specialize (M r1 D N1). lra.
Qed.

(* a single implementation with reliability 0.2 *)
Definition poor : div := registered [("a", 1, u02)] div_new.
Lemma poor_reachable : reachable poor.
Proof. apply registered_reachable; [constructor|]. repeat (apply Forall_cons; [us|]). constructor. Qed.
Theorem C175_failure_raises_refuted : exists s n s', reachable s /\ In n (names s) /\ update s n false = Ret s' /\ (R (reliability s n) < R (reliability s' n))%R.
Proof.
  exists poor, "a", (match update poor "a" false with Ret s => s | _ => poor end). split; [exact poor_reachable|]. split; [vm_compute; auto|]. split; [vm_compute; reflexivity|].
  apply flt_d; [split; vm_compute; reflexivity|split; vm_compute; reflexivity|vm_compute; reflexivity].
Qed.
Theorem C175_failure_partial : forall s n, reachable s -> 0 < hsize s ->
  (forall s1 s2, update s n false = Ret s1 -> update s n true = Ret s2 -> (R (reliability s1 n) <= R (reliability s2 n))%R) /\
  (forall j s1 s2, hsize s <= S j -> updates s n (repeat false j) = Ret s1 -> update s1 n false = Ret s2 -> (R (reliability s2 n) <= R (reliability s1 n))%R).
Proof. intros s n H P. pose proof (reachable_inv s H) as I. split; [intros s1 s2; apply failure_le_success; assumption|]. intros j s1 s2. apply failure_lowers; assumption. Qed.

Theorem C176_window : forall s n f i outs, reachable s -> unit_score i -> 0 < hsize s ->
  exists s', updates (add_impl s n f i) n outs = Ret s' /\ reliability s' n = score_after (hsize s) i (rev outs).
Proof.
  intros s n f i outs H U P. assert (Ra : reachable (add_impl s n f i)) by (apply (R_step s (Add n f i)); [exact H|exact U|reflexivity]).
  destruct (updates_window (add_impl s n f i) n (mkImpl n f i (repeat true (hsize s))) outs i) as (s' & E & _ & _ & x & Fx & _ & Sx).
  - exact (reachable_inv _ Ra).
  - exact P.
  - unfold add_impl. cbn [impls]. rewrite find_put by exact (proj1 (reachable_inv s H)). cbn [nm]. rewrite seqb_refl. reflexivity.
  - reflexivity.
  - reflexivity.
  - exists s'. split; [exact E|]. unfold reliability. rewrite Fx. exact Sx.
Qed.
Example C176_nonvacuous : window 3 [false; true; false; false] = [true; false; false] /\ window 3 [false] = [true; true; false] /\ score_after 10 (dofZ 1) [false] = dlit 99 100.
Proof. repeat split; vm_compute; reflexivity. Qed.

(* five successes then five failures are on record; the history is cut to five: the failures are gone *)
Definition shrunk : outcome div := match updates (registered [("a", 1, dofZ 1)] div_new) "a" (repeat false 5) with Ret s => update (set_history_size s 5) "a" true | o => o end.
Definition recent : outcome div := updates (set_history_size (registered [("a", 1, dofZ 1)] div_new) 5) "a" (repeat false 5 ++ [true]).
Theorem C177_shrink_refuted : exists s n s1 s2, reachable s /\ updates s n (repeat false 5) = Ret s1 /\ hsize s1 = 10 /\ update (set_history_size s1 5) n true = Ret s2 /\
  reliability s2 n = blend (reliability s1 n) (dofZ 1) /\ reliability s2 n <> blend (reliability s1 n) (rate [false; false; false; false; true]).
Proof.
  exists (registered [("a", 1, dofZ 1)] div_new), "a", (match updates (registered [("a", 1, dofZ 1)] div_new) "a" (repeat false 5) with Ret s => s | _ => div_new end),
    (match shrunk with Ret s => s | _ => div_new end).
  split; [apply registered_reachable; [constructor|]; repeat (apply Forall_cons; [us|]); constructor|]. split; [vm_compute; reflexivity|]. split; [reflexivity|]. split; [vm_compute; reflexivity|].
  split; [vm_compute; reflexivity|]. vm_compute. discriminate.
Qed.
Theorem C177_resize_partial : forall s k n, reachable s -> reliability (set_history_size s k) n = reliability s n /\ names (set_history_size s k) = names s /\ set_history_size s (hsize s) = s /\
  (hsize s <= k -> forall x, In x (impls s) -> exists b, In (mkImpl (nm x) (fn x) (score x) (hist x ++ repeat b (k - hsize s))) (impls (set_history_size s k))).
Proof.
  intros s k n H. pose proof (reachable_inv s H) as I. split; [apply resize_scores|]. split; [unfold names, set_history_size; cbn [impls]; rewrite map_map; reflexivity|]. split; [apply resize_same; exact I|].
  intros L x Hx. assert (Lx : length (hist x) = hsize s) by (destruct I as (_ & F & _); rewrite Forall_forall in F; apply (F x Hx)). destruct (resize_grow (hist x) k ltac:(lia)) as [b Hb]. exists b.
  unfold set_history_size. cbn [impls]. apply in_map_iff. exists x. rewrite Hb, Lx. auto.
Qed.

(* history size 0: the first report is undefined behaviour *)
Theorem C178_size0_refuted : exists s, reachable s /\ update s "a" true = UB UB_bad_iterator /\ (forall again, execute s (fun _ _ => boom) again = UB UB_bad_iterator).
Proof.
  exists (set_history_size poor 0). split; [apply (R_step poor (SetSize 0)); [exact poor_reachable|reflexivity|reflexivity]|]. split; [vm_compute; reflexivity|]. intros again. vm_compute. reflexivity.
Qed.
Theorem C178_defined_partial : forall s o, reachable s -> 0 < hsize s -> sensible o -> exists s', apply s o = Ret s' /\ reachable s'.
Proof. intros s o H P Se. destruct (apply_total s o (reachable_inv s H) P) as [s' E]. exists s'. split; [exact E|]. exact (R_step s o s' H Se E). Qed.

Theorem C179_excluded : forall s ans ans' again again', reachable s -> 0 < hsize s -> (exists r, voters s ans r <> []) ->
  (forall x, In x (live s) -> ans (nm x) (fn x) = ans' (nm x) (fn x)) -> execute s ans again = execute s ans' again'.
Proof. intros. apply no_influence; auto. apply reachable_inv; assumption. Qed.
(* b (0.1) is not consulted *)
Definition mixed : div := registered [("a", 1, u02); ("b", 2, u01)] div_new.
Example C179_nonvacuous : map nm (live mixed) = ["a"] /\ names mixed = ["a"; "b"] /\ exists s', execute mixed (says (Gives 7) (Gives 5) boom) unheard = Ret (s', Value 7) /\ execute mixed (says (Gives 7) boom boom) unheard = Ret (s', Value 7).
Proof. split; [vm_compute; reflexivity|]. split; [reflexivity|]. eexists. split; vm_compute; reflexivity. Qed.

(* a (reliability 1) keeps throwing, b (0.1) works: b is never asked; a working implementation named "" cannot be the fallback *)
Definition deaf : div := registered [("a", 1, dofZ 1); ("b", 2, u01)] div_new.
Definition nameless : div := registered [("", 1, u01)] div_new.
Theorem C180_answers_refuted : 
  (exists s, reachable s /\ hsize s = 10 /\ In "b" (names s) /\ (forall n f, says boom (Gives 5) boom n f = Gives 5 <-> n = "b") /\
     exists s', execute s (says boom (Gives 5) boom) (says boom (Gives 5) boom) = Ret (s', Raised E_domain_error)) /\
  (exists s, reachable s /\ names s = [""] /\ forall f, exists s', execute s (fun _ _ => Gives 5) (fun _ _ => Gives f) = Ret (s', Raised E_runtime_error)).
Proof.
  split.
  - exists deaf. split; [apply registered_reachable; [constructor|]; repeat (apply Forall_cons; [us|]); constructor|]. split; [reflexivity|]. split; [vm_compute; auto|]. split.
    + intros n f. unfold says, boom. destruct (String.eqb_spec n "a") as [->|N]; [split; discriminate|]. destruct (String.eqb_spec n "b"); split; congruence.
    + eexists. vm_compute. reflexivity.
  - exists nameless. split; [apply registered_reachable; [constructor|]; repeat (apply Forall_cons; [us|]); constructor|]. split; [reflexivity|]. intros f. eexists. vm_compute. reflexivity.
Qed.
Theorem C180_answers_partial : forall s ans again, reachable s -> 0 < hsize s ->
  ((exists x r, In x (live s) /\ ans (nm x) (fn x) = Gives r) -> exists s' r, execute s ans again = Ret (s', Value r)) /\
  ((forall x r, In x (live s) -> ans (nm x) (fn x) <> Gives r) -> exists s', names s' = names s /\ execute s ans again = Ret (s',
     match find_impl (most_reliable s') (impls s') with
     | Some x => if String.eqb (most_reliable s') "" then Raised E_runtime_error else match again (nm x) (fn x) with Gives r => Value r | Fails e => Raised e end
     | None => Raised E_runtime_error end)).
Proof.
  intros s ans again H P. pose proof (reachable_inv s H) as I. split.
  - intros (x & r & Hx & A). destruct (execute_winner s ans again I P) as (r' & E & _); [|eauto]. exists r. intros C. assert (Hin : In x (voters s ans r)) by (unfold voters; apply filter_In; split; [exact Hx|unfold answers; rewrite A; apply Z.eqb_refl]).
    rewrite C in Hin. exact Hin.
  - intros N. apply fallback; [exact I|exact P|]. intros r. unfold voters. destruct (filter (answers ans r) (live s)) as [|x t] eqn:E; [reflexivity|]. exfalso.
    assert (Hx : In x (filter (answers ans r) (live s))) by (rewrite E; simpl; auto). apply filter_In in Hx. destruct Hx as [Hx A]. unfold answers in A. destruct (ans (nm x) (fn x)) eqn:Q; [|discriminate]. exact (N x r0 Hx Q).
Qed.

Theorem C181_execute_effects : forall s ans again s' o, reachable s -> 0 < hsize s -> execute s ans again = Ret (s', o) ->
  names s' = names s /\ hsize s' = hsize s /\
  (forall n, (forall x, In x (live s) -> nm x = n -> ~ throws (ans n (fn x))) -> reliability s' n = reliability s n) /\
  (forall x s1, In x (live s) -> throws (ans (nm x) (fn x)) -> update s (nm x) false = Ret s1 -> reliability s' (nm x) = reliability s1 (nm x)).
Proof. intros s ans again s' o H. exact (execute_untouched s ans again s' o (reachable_inv s H)). Qed.
Example C181_nonvacuous : exists s', execute three (says (Gives 7) boom (Gives 5)) unheard = Ret (s', Value 5) /\ reliability s' "b" = dlit 99 100 /\ reliability s' "a" = dofZ 1.
Proof.
  exists (match execute three (says (Gives 7) boom (Gives 5)) unheard with Ret (s, _) => s | _ => three end). split; [vm_compute; reflexivity|]. split; vm_compute; reflexivity.
Qed.

Theorem C182_most_reliable : forall s, reachable s -> (names s = [] -> most_reliable s = "") /\ (names s <> [] -> In (most_reliable s) (names s) /\
  forall m, In m (names s) -> (R (reliability s m) <= R (reliability s (most_reliable s)))%R /\
    (R (reliability s m) = R (reliability s (most_reliable s)) -> m = most_reliable s \/ String.compare (most_reliable s) m = Lt)).
Proof.
  intros s H. split.
  - unfold names, most_reliable. destruct (impls s); [reflexivity|discriminate].
  - intros N. apply most_reliable_spec; [apply reachable_inv; exact H|]. intros C. apply N. unfold names. rewrite C. reflexivity.
Qed.
Example C182_nonvacuous : most_reliable three = "a" /\ names three = ["a"; "b"; "c"] /\ most_reliable lone = "a" /\ most_reliable (add_impl mixed "b" 9 (dofZ 1)) = "b".
Proof. repeat split; vm_compute; reflexivity. Qed.

Theorem C183_registration : forall s n f i, reachable s -> reliability (add_impl s n f i) n = i /\ has_impl (add_impl s n f i) n = true /\
  (forall m, m <> n -> reliability (add_impl s n f i) m = reliability s m /\ has_impl (add_impl s n f i) m = has_impl s m) /\
  (forall g j, add_impl (add_impl s n g j) n f i = add_impl s n f i) /\
  (forall m, has_impl s m = true <-> In m (names s)).
Proof.
  intros s n f i H. pose proof (proj1 (reachable_inv s H)) as O. unfold reliability, has_impl, add_impl. cbn [impls hsize]. rewrite (find_put _ _ n O). cbn [nm]. rewrite seqb_refl. split; [reflexivity|]. split; [reflexivity|]. split.
  - intros m D. rewrite (find_put _ _ m O). cbn [nm]. rewrite (seqb_neq m n) by exact D. split; reflexivity.
  - split.
    + intros g j. f_equal. clear O. induction (impls s) as [|x r IH]; cbn [put nm]; [rewrite scmp_refl; reflexivity|]. destruct (String.compare n (nm x)) eqn:C; cbn [put nm]; [rewrite scmp_refl; reflexivity|rewrite scmp_refl; reflexivity|].
      rewrite C, IH. reflexivity.
    + intros m. destruct (find_impl m (impls s)) as [x|] eqn:E; [|split; [discriminate|intros C; apply find_none in E; contradiction]]. split; [intros _|reflexivity]. apply find_in in E. destruct E as [Ix <-]. apply in_map. exact Ix.
Qed.
Example C183_nonvacuous : names (add_impl three "bb" 9 u02) = ["a"; "b"; "bb"; "c"] /\ reliability (add_impl three "b" 9 u02) "b" = u02 /\ has_impl three "bb" = false.
Proof. repeat split; vm_compute; reflexivity. Qed.

Theorem C184_exclusion : forall s n, reachable s -> 0 < hsize s ->
  (forall xs, exists s', runs s xs = Ret s') /\
  (forall x xs s', find_impl n (impls s) = Some x -> (forall a b, In (a, b) xs -> throws (a n (fn x))) -> hsize s + 15 <= length xs -> runs s xs = Ret s' -> flt (reliability s' n) (dlit 2 10) = true) /\
  (forall xs s', flt (reliability s n) (dlit 2 10) = true -> runs s xs = Ret s' -> reliability s' n = reliability s n) /\
  (forall s', In n (names s) -> updates s n (repeat true (hsize s + 2)) = Ret s' -> flt (reliability s' n) (dlit 2 10) = false).
Proof.
  intros s n H P. pose proof (reachable_inv s H) as I. split; [intros xs; apply runs_total; assumption|]. split; [intros x xs s'; apply runs_exclude; assumption|]. split; [intros xs s'; apply runs_excluded; assumption|].
  intros s'. apply recover; assumption.
Qed.
Example C184_nonvacuous : let xs := repeat (says boom (Gives 5) (Gives 5), unheard) 25 in exists s', runs three xs = Ret s' /\ flt (reliability s' "a") (dlit 2 10) = true /\ reliability s' "b" = dofZ 1 /\
  exists s'', updates s' "a" (repeat true 12) = Ret s'' /\ flt (reliability s'' "a") (dlit 2 10) = false.
Proof.
  cbv zeta. exists (match runs three (repeat (says boom (Gives 5) (Gives 5), unheard) 25) with Ret s => s | _ => three end). split; [vm_compute; reflexivity|]. split; [vm_compute; reflexivity|]. split; [vm_compute; reflexivity|].
  exists (match runs three (repeat (says boom (Gives 5) (Gives 5), unheard) 25) with Ret s => match updates s "a" (repeat true 12) with Ret s => s | _ => three end | _ => three end). split; vm_compute; reflexivity.
Qed.

Print Assumptions C171_scores.
Print Assumptions C172_weighted_plurality.
Print Assumptions C173_plurality.
Print Assumptions C174_majority_refuted.
Print Assumptions C174_heaviest_partial.
Print Assumptions C175_failure_raises_refuted.
Print Assumptions C175_failure_partial.
Print Assumptions C176_window.
Print Assumptions C177_shrink_refuted.
Print Assumptions C177_resize_partial.
Print Assumptions C178_size0_refuted.
Print Assumptions C178_defined_partial.
Print Assumptions C179_excluded.
Print Assumptions C180_answers_refuted.
Print Assumptions C180_answers_partial.
Print Assumptions C181_execute_effects.
Print Assumptions C182_most_reliable.
Print Assumptions C183_registration.
Print Assumptions C184_exclusion.
