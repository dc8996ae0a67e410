(** AlgorithmicDiversity: every reachable object, and what follows for it. *)
From Coq Require Import String List NArith ZArith Bool SpecFloat Reals Lia Lra Sorted.
Import ListNotations.
From Flocq Require Import Core.
From Verif Require Import Outcome Words Arith Floats FloatsR HealthFloat BitsFloat_Proofs RMA3_Proofs Power2_Proofs Div_Model Div_Spec Div_Proofs Div2_Proofs.

Lemma round_inv k ans l : (Z.of_nat k < 2 ^ 53)%Z -> Forall (sound k) l -> forall v l' v', round_of ans l v = Ret (l', v') -> Forall (sound k) l' /\ map nm l' = map nm l.
Proof.
  intros K F. induction F as [|x r Sx F IH]; intros v l' v'; cbn [round_of]; [intros H; injection H as <- <-; auto|].
  destruct (excluded x).
  - destruct (round_of ans r v) as [[r' w]| | |] eqn:E; try discriminate. intros H; injection H as <- <-. destruct (IH _ _ _ E) as [A B]. split; [constructor; assumption|simpl; congruence].
  - destruct (ans (nm x) (fn x)).
    + destruct (round_of ans r _) as [[r' w]| | |] eqn:E; try discriminate. intros H; injection H as <- <-. destruct (IH _ _ _ E) as [A B]. split; [constructor; assumption|simpl; congruence].
    + destruct (judged x false) as [x'| | |] eqn:J; try discriminate. destruct (round_of ans r v) as [[r' w]| | |] eqn:E; try discriminate. intros H; injection H as <- <-.
      destruct (judged_ok k x false x' K Sx J) as (Sx' & N & _). destruct (IH _ _ _ E) as [A B]. split; [constructor; assumption|simpl; congruence].
Qed.
Lemma update_in_inv k n ok l : (Z.of_nat k < 2 ^ 53)%Z -> Forall (sound k) l -> forall l', update_in n ok l = Ret l' -> Forall (sound k) l' /\ map nm l' = map nm l.
Proof.
  intros K F. induction F as [|x r Sx F IH]; intros l'; cbn [update_in]; [intros H; injection H as <-; auto|].
  destruct (String.eqb n (nm x)).
  - destruct (judged x ok) as [x'| | |] eqn:J; try discriminate. intros H; injection H as <-. destruct (judged_ok k x ok x' K Sx J) as (Sx' & N & _).
    split; [constructor; assumption|simpl; congruence].
  - destruct (update_in n ok r) as [r'| | |] eqn:E; try discriminate. intros H; injection H as <-. destruct (IH _ eq_refl) as [A B]. split; [constructor; assumption|simpl; congruence].
Qed.
Lemma put_sound k e l : sound k e -> Forall (sound k) l -> Forall (sound k) (put e l).
Proof. intros E F. apply Forall_forall. intros x H. apply put_nm in H. destruct H as [->|H]; [exact E|]. rewrite Forall_forall in F. auto. Qed.
Lemma resized_length h k : length (resized h k) = k.
Proof. unfold resized. rewrite app_length, repeat_length, firstn_length. lia. Qed.
Lemma apply_inv s o s' : Inv s -> sensible o -> apply s o = Ret s' -> Inv s'.
Proof.
  intros I Se. pose proof I as (O & F & K). destruct o as [n f i|n ok|ans again|k]; cbn [apply sensible] in *.
  - intros H; injection H as <-. split; [|split]; cbn [add_impl impls hsize]; [apply put_ord; exact O| |exact K]. apply put_sound; [|exact F]. split; cbn [score hist]; [exact Se|apply repeat_length].
  - unfold update. destruct (update_in n ok (impls s)) as [l| | |] eqn:E; try discriminate. intros H; injection H as <-. destruct (update_in_inv _ n ok _ K F _ E) as [A B].
    split; [|split]; cbn [impls hsize]; [unfold ord; rewrite B; exact O|exact A|exact K].
  - unfold execute. destruct (round_of ans (impls s) []) as [[l v]| | |] eqn:E; try discriminate. destruct (round_inv _ ans _ K F _ _ _ E) as [A B].
    assert (I' : Inv (mkDiv l (hsize s))) by (split; [|split]; cbn [impls hsize]; [unfold ord; rewrite B; exact O|exact A|exact K]).
    destruct v; [|intros H; injection H as <-; exact I']. cbv zeta. destruct (String.eqb _ _); [intros H; injection H as <-; exact I'|].
    destruct (find_impl _ _); [|intros H; injection H as <-; exact I']. destruct (again _ _); intros H; injection H as <-; exact I'.
  - intros H; injection H as <-. split; [|split]; cbn [set_history_size impls hsize]; [apply ord_map; [reflexivity|exact O]| |exact Se].
    apply Forall_forall. intros y Hy. apply in_map_iff in Hy. destruct Hy as (x & <- & Hx). rewrite Forall_forall in F. destruct (F x Hx) as [U _]. split; cbn [score hist]; [exact U|apply resized_length].
Qed.
Lemma new_inv : Inv div_new.
Proof. split; [constructor|split; [constructor|]]. cbn [div_new hsize]. lia. Qed.
Lemma reachable_inv s : reachable s -> Inv s.
Proof. induction 1; [apply new_inv|]. eapply apply_inv; eauto. Qed.

(** C171 *)
Lemma reliability_unit s n : Inv s -> unit_score (reliability s n).
Proof.
  intros (_ & F & _). unfold reliability. destruct (find_impl n (impls s)) as [x|] eqn:E.
  - apply find_in in E. rewrite Forall_forall in F. exact (proj1 (F x (proj1 E))).
  - split; [split; reflexivity|]. cbn. lra.
Qed.

(** C173: default reliabilities *)
Local Open Scope R_scope.
Lemma ones_sum n : (Z.of_nat n < 2 ^ 53)%Z -> forall l, length l = n -> Forall (fun x => score x = dofZ 1) l -> okd (fold_left dadd (map score l) (S754_zero false)) /\
  R (fold_left dadd (map score l) (S754_zero false)) = IZR (Z.of_nat n).
Proof.
  induction n as [|n IH]; intros B l L F.
  - destruct l; [|discriminate]. cbn. split; [split; reflexivity|reflexivity].
  - assert (Hl : l <> []) by (destruct l; discriminate). rewrite (app_removelast_last (mkImpl EmptyString 0 (dofZ 1) []) Hl) in *. set (l0 := removelast l) in *. set (x := List.last l _) in *.
    rewrite app_length in L. simpl in L. apply Forall_app in F. destruct F as [F0 Fx]. apply Forall_inv in Fx.
    rewrite map_app, fold_left_app. cbn [map fold_left]. rewrite Fx. destruct (IH ltac:(lia) l0 ltac:(lia) F0) as [O E].
    destruct (ofZ_ex 1 eq_refl) as [O1 R1]. destruct (add_d _ _ O O1) as [O2 R2]. { rewrite E, R1. unfold mid. assert (0 <= IZR (Z.of_nat n) <= IZR (2^53)) by (split; apply IZR_le; lia). change (IZR (2^53)) with 9007199254740992 in *. lra. }
    split; [exact O2|]. rewrite R2, E, R1, <- plus_IZR, rnd_z by lia. f_equal. lia.
Qed.
Lemma filter_le {A} (f : A -> bool) l : (length (filter f l) <= length l)%nat.
Proof. induction l as [|x r IH]; simpl; [lia|]. destruct (f x); simpl; lia. Qed.
Lemma default_plurality s ans again r : Inv s -> (0 < hsize s)%nat -> Forall (fun x => score x = dofZ 1) (impls s) -> (Z.of_nat (length (impls s)) < 2 ^ 53)%Z ->
  (forall r', r' <> r -> (length (voters s ans r') < length (voters s ans r))%nat) -> exists s', execute s ans again = Ret (s', Value r).
Proof.
  intros I P F B M. assert (Nr : voters s ans r <> []). { intros C. specialize (M (r + 1)%Z ltac:(lia)). rewrite C in M. simpl in M. lia. }
  destruct (execute_winner s ans again I P (ex_intro _ r Nr)) as (r1 & E & [N1 W]). rewrite E. destruct (Z.eq_dec r1 r) as [->|D]; [eauto|]. exfalso.
  destruct (W r Nr) as [Le _]. pose proof (M r1 D) as Lt.
  assert (V : forall q, R (backing s ans q) = IZR (Z.of_nat (length (voters s ans q)))).
  { intros q. unfold backing. fold (voters s ans q). apply ones_sum; [|reflexivity|].
    - assert (length (voters s ans q) <= length (impls s))%nat; [|lia]. unfold voters, live. etransitivity; apply filter_le.
    - apply Forall_forall. intros x Hx. apply filter_In in Hx. destruct Hx as [Hx _]. apply filter_In in Hx. rewrite Forall_forall in F. apply F. tauto. }
  rewrite !V in Le. apply le_IZR in Le. lia.
Qed.

(** C176: the window *)
Lemma window_length n outs : length (window n outs) = n.
Proof. unfold window. rewrite skipn_length, app_length, repeat_length. lia. Qed.
Lemma skipn_S {A} k (l : list A) : skipn (S k) l = tl (skipn k l).
Proof. revert l. induction k as [|k IH]; intros [|x l]; try reflexivity. rewrite (skipn_cons k x l), <- IH. reflexivity. Qed.
Lemma window_snoc n outs o : (0 < n)%nat -> window n (outs ++ [o]) = tl (window n outs) ++ [o].
Proof.
  intros P. unfold window. rewrite app_length. simpl. rewrite Nat.add_1_r, app_assoc, skipn_app. f_equal.
  - apply skipn_S.
  - rewrite app_length, repeat_length. replace (S (length outs) - (n + length outs))%nat with O by lia. reflexivity.
Qed.
Lemma updates_snoc s n outs o : updates s n (outs ++ [o]) = match updates s n outs with Ret s' => update s' n o | UB u => UB u | Throw e => Throw e | OutOfFuel => OutOfFuel end.
Proof. revert s. induction outs as [|x r IH]; intros s; cbn [updates app]; [destruct (update s n o); reflexivity|]. destruct (update s n x); try reflexivity. apply IH. Qed.
Lemma updates_window s n x0 outs i : Inv s -> (0 < hsize s)%nat -> find_impl n (impls s) = Some x0 -> score x0 = i -> hist x0 = repeat true (hsize s) ->
  exists s', updates s n outs = Ret s' /\ Inv s' /\ hsize s' = hsize s /\ exists x, find_impl n (impls s') = Some x /\ hist x = window (hsize s) outs /\ score x = score_after (hsize s) i (rev outs).
Proof.
  intros I P Fd Sc Hi. induction outs as [|o outs IH] using rev_ind.
  - exists s. repeat split; auto; try apply I. exists x0. split; [exact Fd|]. split; [rewrite Hi; unfold window; simpl; rewrite app_nil_r; reflexivity|exact Sc].
  - destruct IH as (s1 & E & I1 & H1 & x & Fx & Hx & Sx). rewrite updates_snoc, E, update_eq by (try assumption; lia).
    eexists; split; [reflexivity|]. split; [apply update_inv; [assumption|lia]|]. split; [exact H1|]. cbn [impls].
    rewrite find_map by apply upd1_nm. rewrite Fx. cbn [option_map]. eexists; split; [reflexivity|]. apply find_in in Fx. destruct Fx as [_ Nx].
    unfold upd1. rewrite Nx, seqb_refl. unfold judge1. cbn [hist score]. rewrite Hx, <- window_snoc by exact P. split; [reflexivity|].
    rewrite rev_unit. cbn [score_after]. rewrite <- Sx. cbn [rev]. rewrite rev_involutive. unfold blend, rate, successes. rewrite window_length. reflexivity.
Qed.

(** C182 *)
Lemma most_reliable_spec s : Inv s -> impls s <> [] -> In (most_reliable s) (names s) /\
  forall m, In m (names s) -> R (reliability s m) <= R (reliability s (most_reliable s)) /\ (R (reliability s m) = R (reliability s (most_reliable s)) -> m = most_reliable s \/ slt (most_reliable s) m).
Proof.
  intros (O & F & _) N. unfold most_reliable, names. destruct (impls s) as [|x r] eqn:E; [congruence|].
  assert (Rel : forall y, In y (x :: r) -> reliability s (nm y) = score y). { intros y Hy. unfold reliability. rewrite E, (ord_find _ y O Hy). reflexivity. }
  destruct (top_spec score (fun a b => slt (nm a) (nm b))) with (l := r) (best := x) as [I M].
  - intros a b A B. exact (slt_irr _ (slt_trans _ _ _ A B)).
  - intros y Hy. rewrite Forall_forall in F. apply (F y Hy).
  - apply ord_pairs; exact O.
  - split; [apply in_map; exact I|]. intros m Hm. apply in_map_iff in Hm. destruct Hm as (y & <- & Hy). rewrite (Rel y Hy), (Rel _ I). destruct (M y Hy) as [A B]. split; [exact A|].
    intros C. destruct (B C) as [->|D]; auto.
Qed.

(** C179 *)
Lemma tally_ext ans ans' l : (forall x, In x l -> excluded x = false -> ans (nm x) (fn x) = ans' (nm x) (fn x)) -> forall v, tally ans l v = tally ans' l v.
Proof.
  unfold tally. induction l as [|x r IH]; intros H v; [reflexivity|]. cbn [fold_left]. specialize (IH (fun y Hy => H y (or_intror Hy))).
  destruct (excluded x) eqn:X; [apply IH|]. rewrite (H x (or_introl eq_refl) X). destruct (ans' (nm x) (fn x)); apply IH.
Qed.
Lemma after_ext ans ans' x : (excluded x = false -> ans (nm x) (fn x) = ans' (nm x) (fn x)) -> after ans x = after ans' x.
Proof. unfold after. destruct (excluded x); [reflexivity|]. intros H. rewrite (H eq_refl). reflexivity. Qed.
Lemma live_in s x : In x (live s) <-> In x (impls s) /\ excluded x = false.
Proof. unfold live. rewrite filter_In. unfold excluded. destruct (flt (score x) (dlit 2 10)); simpl; intuition discriminate. Qed.
Lemma no_influence s ans ans' again again' : Inv s -> (0 < hsize s)%nat -> (forall x, In x (live s) -> ans (nm x) (fn x) = ans' (nm x) (fn x)) ->
  (exists r, voters s ans r <> []) -> execute s ans again = execute s ans' again'.
Proof.
  intros I P A V. assert (A' : forall x, In x (impls s) -> excluded x = false -> ans (nm x) (fn x) = ans' (nm x) (fn x)) by (intros; apply A; apply live_in; auto).
  rewrite !execute_eq by assumption. cbv zeta. rewrite <- (tally_ext ans ans' (impls s) A' []).
  assert (S : stepped s ans = stepped s ans'). { unfold stepped. f_equal. apply map_ext_in. intros x Hx. apply after_ext. apply A'. exact Hx. }
  rewrite <- S. destruct (tally ans (impls s) []) eqn:T; [|reflexivity]. exfalso. destruct V as [r V]. pose proof (tally_votes s ans r) as L. rewrite T in L. simpl in L. destruct (voters s ans r); [congruence|discriminate].
Qed.

(** C181 *)
Lemma stepped_reliability s ans n : reliability (stepped s ans) n = match find_impl n (impls s) with Some x => score (after ans x) | None => S754_zero false end.
Proof. unfold reliability, stepped. cbn [impls]. rewrite find_map by apply after_nm. destruct (find_impl n (impls s)); reflexivity. Qed.
Lemma execute_untouched s ans again s' o : Inv s -> (0 < hsize s)%nat -> execute s ans again = Ret (s', o) ->
  names s' = names s /\ hsize s' = hsize s /\
  (forall n, (forall x, In x (live s) -> nm x = n -> ~ throws (ans n (fn x))) -> reliability s' n = reliability s n) /\
  (forall x s1, In x (live s) -> throws (ans (nm x) (fn x)) -> update s (nm x) false = Ret s1 -> reliability s' (nm x) = reliability s1 (nm x)).
Proof.
  intros I P E. pose proof I as (O & F & K). rewrite (execute_state s ans again s' o I P E). split; [unfold names, stepped; cbn [impls]; apply map_nm_same; apply after_nm|]. split; [reflexivity|]. split.
  - intros n H. rewrite stepped_reliability. unfold reliability. destruct (find_impl n (impls s)) as [x|] eqn:Fx; [|reflexivity]. unfold after. destruct (excluded x) eqn:X; [reflexivity|].
    apply find_in in Fx. destruct Fx as [Ix Nx]. destruct (ans (nm x) (fn x)) eqn:A; [reflexivity|]. exfalso. apply (H x); [apply live_in; auto|exact Nx|]. exists e. rewrite <- Nx. exact A.
  - intros x s1 Hx [e T] U. apply live_in in Hx. destruct Hx as [Hx X]. rewrite stepped_reliability, (ord_find _ x O Hx). unfold after. rewrite X, T.
    rewrite update_eq in U by assumption. injection U as <-. unfold reliability. cbn [impls]. rewrite find_map by apply upd1_nm. rewrite (ord_find _ x O Hx). cbn [option_map]. unfold upd1. rewrite seqb_refl. reflexivity.
Qed.

(** C185 *)
Lemma fallback s ans again : Inv s -> (0 < hsize s)%nat -> (forall r, voters s ans r = []) -> exists s', names s' = names s /\
  execute s ans again = Ret (s', 
    match find_impl (most_reliable s') (impls s') with
    | Some x => if String.eqb (most_reliable s') EmptyString then Raised E_runtime_error
                else match again (nm x) (fn x) with Gives r => Value r | Fails e => Raised e end
    | None => Raised E_runtime_error end).
Proof.
  intros I P V. pose proof (stepped_inv s ans I P) as I'. exists (stepped s ans). split; [unfold names, stepped; cbn [impls]; apply map_nm_same; apply after_nm|].
  rewrite execute_eq by assumption. cbv zeta. destruct (tally ans (impls s) []) as [|[k v] t] eqn:T.
  2:{ pose proof (tally_votes s ans k) as L. rewrite T, (V k) in L. simpl in L. rewrite Z.eqb_refl in L. discriminate. }
  destruct (impls (stepped s ans)) as [|y r] eqn:Y.
  - unfold most_reliable. rewrite Y. reflexivity.
  - destruct (most_reliable_spec _ I' ltac:(rewrite Y; discriminate)) as [In_ _]. destruct (find_impl (most_reliable (stepped s ans)) (y :: r)) as [x|] eqn:Fx.
    + destruct (find_in _ _ _ Fx) as [_ Nx]. destruct (String.eqb _ _); [reflexivity|]. rewrite Nx. destruct (again _ _); reflexivity.
    + exfalso. apply find_none in Fx. apply Fx. unfold names in In_. rewrite Y in In_. exact In_.
Qed.
