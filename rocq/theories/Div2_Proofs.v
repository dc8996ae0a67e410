(** AlgorithmicDiversity: updates, rounds, votes. *)
From Coq Require Import String List NArith ZArith Bool SpecFloat Reals Lia Lra Sorted.
Import ListNotations.
From Flocq Require Import Core IEEE754.BinarySingleNaN.
From Verif Require Import Outcome Words Arith Floats FloatsR HealthFloat BitsFloat_Proofs RMA3_Proofs Power2_Proofs Div_Model Div_Spec Div_Proofs.

(** ** Updates *)
Definition judge1 (x : impl) (ok : bool) : impl := let h := tl (hist x) ++ [ok] in mkImpl (nm x) (fn x) (blend (score x) (rate h)) h.
Lemma judged_eq x ok : hist x <> [] -> judged x ok = Ret (judge1 x ok).
Proof. unfold judged, judge1. destruct (hist x); [congruence|]. reflexivity. Qed.
Lemma judge1_sound k x ok : (0 < k)%nat -> (Z.of_nat k < 2 ^ 53)%Z -> sound k x -> sound k (judge1 x ok).
Proof.
  intros P K S. assert (hist x <> []) by (destruct S as [_ L]; destruct (hist x); [simpl in L; lia|discriminate]).
  exact (proj1 (judged_ok k x ok _ K S (judged_eq x ok H))).
Qed.
Definition upd1 (n : string) (ok : bool) (x : impl) : impl := if String.eqb n (nm x) then judge1 x ok else x.
Lemma nonempty_hist k x : (0 < k)%nat -> sound k x -> hist x <> [].
Proof. intros P [_ L] E. rewrite E in L. simpl in L. lia. Qed.
Lemma update_in_eq k n ok l : (0 < k)%nat -> ord l -> Forall (sound k) l -> update_in n ok l = Ret (map (upd1 n ok) l).
Proof.
  intros P O F. unfold ord in O. induction l as [|x r IH]; [reflexivity|]. cbn [update_in map]. apply StronglySorted_inv in O. destruct O as [O Hx]. pose proof (Forall_inv F) as Sx. apply Forall_inv_tail in F.
  unfold upd1 at 1. destruct (String.eqb_spec n (nm x)) as [E|E].
  - rewrite (judged_eq x ok (nonempty_hist k x P Sx)). f_equal. f_equal. rewrite <- (map_id r) at 1. apply map_ext_in. intros y Hy.
    unfold upd1. rewrite seqb_neq; [reflexivity|]. intros C. rewrite Forall_forall in Hx. specialize (Hx (nm y) (in_map nm _ _ Hy)). rewrite <- E, C in Hx. exact (slt_irr _ Hx).
  - rewrite (IH O F). reflexivity.
Qed.
Lemma upd1_nm n ok x : nm (upd1 n ok x) = nm x. Proof. unfold upd1, judge1. destruct (String.eqb n (nm x)); reflexivity. Qed.
Lemma map_nm_same (f : impl -> impl) l : (forall x, nm (f x) = nm x) -> map nm (map f l) = map nm l.
Proof. intros H. rewrite map_map. apply map_ext. exact H. Qed.
Lemma ord_map (f : impl -> impl) l : (forall x, nm (f x) = nm x) -> ord l -> ord (map f l).
Proof. unfold ord. intros H. rewrite map_nm_same by exact H. auto. Qed.
Lemma upd1_sound k n ok x : (0 < k)%nat -> (Z.of_nat k < 2 ^ 53)%Z -> sound k x -> sound k (upd1 n ok x).
Proof. intros. unfold upd1. destruct (String.eqb n (nm x)); [apply judge1_sound|]; assumption. Qed.
Lemma Forall_map_sound k (f : impl -> impl) l : (forall x, sound k x -> sound k (f x)) -> Forall (sound k) l -> Forall (sound k) (map f l).
Proof. intros H F. induction F; simpl; constructor; auto. Qed.
Lemma update_eq s n ok : Inv s -> (0 < hsize s)%nat -> update s n ok = Ret (mkDiv (map (upd1 n ok) (impls s)) (hsize s)).
Proof. intros (O & F & K) P. unfold update. rewrite (update_in_eq (hsize s)) by assumption. reflexivity. Qed.
Lemma update_inv s n ok : Inv s -> (0 < hsize s)%nat -> Inv (mkDiv (map (upd1 n ok) (impls s)) (hsize s)).
Proof.
  intros (O & F & K) P. split; [|split]; cbn [impls hsize]; [apply ord_map; [apply upd1_nm|exact O]| |exact K].
  apply Forall_map_sound; [|exact F]. intros x Sx. apply upd1_sound; assumption.
Qed.
Lemma find_map (f : impl -> impl) n l : (forall x, nm (f x) = nm x) -> find_impl n (map f l) = option_map f (find_impl n l).
Proof. intros H. induction l as [|x r IH]; [reflexivity|]. simpl. rewrite H. destruct (String.eqb n (nm x)); [reflexivity|exact IH]. Qed.
(* an empty history is only reached for size 0, and then an update of a known name is undefined *)
Lemma update_in_empty n ok l : Forall (sound 0) l -> In n (map nm l) -> update_in n ok l = UB UB_bad_iterator.
Proof.
  induction l as [|x r IH]; [simpl; tauto|]. intros F H. pose proof (Forall_inv F) as [_ L]. apply Forall_inv_tail in F. cbn [update_in].
  destruct (String.eqb_spec n (nm x)) as [E|E].
  - unfold judged. destruct (hist x); [reflexivity|discriminate L].
  - rewrite IH; [reflexivity|exact F|]. destruct H as [H|H]; [congruence|exact H].
Qed.
Lemma update_in_absent n ok l : ~ In n (map nm l) -> update_in n ok l = Ret l.
Proof. induction l as [|x r IH]; [reflexivity|]. cbn [update_in map In]. intros H. rewrite seqb_neq; [|intros E; apply H; auto]. rewrite IH; [reflexivity|tauto]. Qed.

(** ** One round *)
Definition after (ans : string -> nat -> answer) (x : impl) : impl :=
  if excluded x then x else match ans (nm x) (fn x) with Gives _ => x | Fails _ => judge1 x false end.
Definition tally (ans : string -> nat -> answer) (l : list impl) (v : list (Z * sf)) : list (Z * sf) :=
  fold_left (fun v x => if excluded x then v else match ans (nm x) (fn x) with Gives k => vote k (score x) v | Fails _ => v end) l v.
Lemma round_eq k ans l v : (0 < k)%nat -> Forall (sound k) l -> round_of ans l v = Ret (map (after ans) l, tally ans l v).
Proof.
  intros P F. revert v. induction F as [|x r Sx F IH]; intros v; [reflexivity|]. cbn [round_of map]. unfold tally. cbn [fold_left]. unfold after at 1.
  destruct (excluded x); [rewrite IH; reflexivity|]. destruct (ans (nm x) (fn x)); [rewrite IH; reflexivity|].
  rewrite (judged_eq x false (nonempty_hist k x P Sx)), IH. reflexivity.
Qed.
Lemma after_nm ans x : nm (after ans x) = nm x. Proof. unfold after, judge1. destruct (excluded x), (ans (nm x) (fn x)); reflexivity. Qed.
Lemma after_sound k ans x : (0 < k)%nat -> (Z.of_nat k < 2 ^ 53)%Z -> sound k x -> sound k (after ans x).
Proof. intros. unfold after. destruct (excluded x); [assumption|]. destruct (ans (nm x) (fn x)); [assumption|]. apply judge1_sound; assumption. Qed.
Definition stepped (s : div) (ans : string -> nat -> answer) : div := mkDiv (map (after ans) (impls s)) (hsize s).
Lemma stepped_inv s ans : Inv s -> (0 < hsize s)%nat -> Inv (stepped s ans).
Proof.
  intros (O & F & K) P. split; [|split]; cbn [stepped impls hsize]; [apply ord_map; [apply after_nm|exact O]| |exact K].
  apply Forall_map_sound; [|exact F]. intros x Sx. apply after_sound; assumption.
Qed.
(* when no consulted implementation fails, the round is the same for every history size *)
Lemma round_quiet ans l v : Forall (fun x => excluded x = false -> forall e, ans (nm x) (fn x) <> Fails e) l -> round_of ans l v = Ret (l, tally ans l v).
Proof.
  intros F. revert v. induction F as [|x r Sx F IH]; intros v; [reflexivity|]. cbn [round_of]. unfold tally. cbn [fold_left].
  destruct (excluded x); [rewrite IH; reflexivity|]. destruct (ans (nm x) (fn x)); [rewrite IH; reflexivity|]. exfalso. exact (Sx eq_refl _ eq_refl).
Qed.
Lemma execute_eq s ans again : Inv s -> (0 < hsize s)%nat -> execute s ans again =
  let s' := stepped s ans in
  match tally ans (impls s) [] with
  | [] => let n := most_reliable s' in
          if String.eqb n EmptyString then Ret (s', Raised E_runtime_error)
          else match find_impl n (impls s') with
               | Some x => match again n (fn x) with Gives r => Ret (s', Value r) | Fails e => Ret (s', Raised e) end
               | None => Ret (s', Raised E_bad_alloc)
               end
  | v :: r => Ret (s', Value (fst (top snd v r)))
  end.
Proof. intros (O & F & K) P. unfold execute. rewrite (round_eq (hsize s)) by assumption. reflexivity. Qed.
Lemma execute_state s ans again s' o : Inv s -> (0 < hsize s)%nat -> execute s ans again = Ret (s', o) -> s' = stepped s ans.
Proof.
  intros I P. rewrite execute_eq by assumption. cbv zeta. destruct (tally ans (impls s) []); [|intros H; injection H; auto].
  destruct (String.eqb _ _); [intros H; injection H; auto|]. destruct (find_impl _ _); [|intros H; injection H; auto]. destruct (again _ _); intros H; injection H; auto.
Qed.

(** ** Votes *)
Definition vkeys (l : list (Z * sf)) : Prop := StronglySorted Z.lt (map fst l).
Fixpoint lookup (r : Z) (l : list (Z * sf)) : option sf := match l with [] => None | (k, v) :: t => if (r =? k)%Z then Some v else lookup r t end.
Definition or0 (o : option sf) : sf := match o with Some v => v | None => S754_zero false end.
Lemma vote_keys r w l k : In k (map fst (vote r w l)) -> k = r \/ In k (map fst l).
Proof. induction l as [|[k' v] t IH]; simpl; [intuition|]. destruct (r ?= k')%Z; simpl; intuition. Qed.
Lemma vote_sorted r w l : vkeys l -> vkeys (vote r w l).
Proof.
  unfold vkeys. induction l as [|[k v] t IH]; simpl; intros H; [repeat constructor|]. apply StronglySorted_inv in H. destruct H as [Ht Hk].
  destruct (Z.compare_spec r k) as [E|E|E]; simpl.
  - constructor; assumption.
  - constructor; [constructor; assumption|]. constructor; [exact E|]. eapply Forall_impl; [|exact Hk]. simpl. intros. lia.
  - constructor; [apply IH; exact Ht|]. apply Forall_forall. intros z Hz. apply vote_keys in Hz. destruct Hz as [->|Hz]; [lia|]. rewrite Forall_forall in Hk. apply Hk; exact Hz.
Qed.
Lemma lookup_absent r l : ~ In r (map fst l) -> lookup r l = None.
Proof. induction l as [|[k v] t IH]; [reflexivity|]. simpl. intros H. destruct (Z.eqb_spec r k); [exfalso; apply H; auto|]. apply IH. tauto. Qed.
Lemma lookup_vote q r w l : vkeys l -> lookup q (vote r w l) = if (q =? r)%Z then Some (dadd (or0 (lookup r l)) w) else lookup q l.
Proof.
  unfold vkeys. induction l as [|[k v] t IH]; simpl; intros H; [destruct (q =? r)%Z; reflexivity|]. apply StronglySorted_inv in H. destruct H as [Ht Hk].
  destruct (Z.compare_spec r k) as [E|E|E]; simpl.
  - subst k. rewrite Z.eqb_refl. cbn [or0]. destruct (q =? r)%Z; reflexivity.
  - destruct (Z.eqb_spec r k); [lia|]. rewrite (lookup_absent r t); [reflexivity|]. intros C. rewrite Forall_forall in Hk. specialize (Hk _ C). lia.
  - destruct (Z.eqb_spec r k); [lia|]. rewrite (IH Ht). destruct (Z.eqb_spec q k); destruct (Z.eqb_spec q r); try reflexivity. lia.
Qed.
Lemma in_lookup r v l : vkeys l -> In (r, v) l <-> lookup r l = Some v.
Proof.
  unfold vkeys. induction l as [|[k w] t IH]; simpl; intros H; [split; [tauto|discriminate]|]. apply StronglySorted_inv in H. destruct H as [Ht Hk].
  destruct (Z.eqb_spec r k) as [E|E].
  - subst. split; [intros [C|C]; [congruence|]|intros C; left; congruence]. rewrite Forall_forall in Hk. specialize (Hk k (in_map fst _ _ C)). lia.
  - rewrite <- (IH Ht). split; [intros [C|C]; [congruence|exact C]|auto].
Qed.
Definition consulted (l : list impl) : list impl := filter (fun x => negb (excluded x)) l.
Lemma tally_spec ans l v : vkeys v -> vkeys (tally ans l v) /\
  forall r, lookup r (tally ans l v) = match filter (answers ans r) (consulted l) with [] => lookup r v | vs => Some (fold_left dadd (map score vs) (or0 (lookup r v))) end.
Proof.
  unfold tally. revert v. induction l as [|x t IH]; intros v V; [split; [exact V|reflexivity]|]. cbn [fold_left consulted filter].
  destruct (excluded x) eqn:X; cbn [negb]; [exact (IH v V)|]. cbn [filter].
  destruct (ans (nm x) (fn x)) as [k|e] eqn:A.
  - destruct (IH (vote k (score x) v) (vote_sorted k _ v V)) as [S L]. split; [exact S|]. intros r. rewrite L, (lookup_vote r k _ v V). unfold consulted at 1.
    assert (An : answers ans r x = (k =? r)%Z) by (unfold answers; rewrite A; reflexivity). rewrite An. rewrite (Z.eqb_sym k r). fold (consulted t).
    destruct (Z.eqb_spec r k) as [E|E].
    + subst k. cbn [map fold_left]. destruct (filter (answers ans r) (consulted t)); reflexivity.
    + reflexivity.
  - destruct (IH v V) as [S L]. split; [exact S|]. intros r. rewrite L. assert (An : answers ans r x = false) by (unfold answers; rewrite A; reflexivity). rewrite An. reflexivity.
Qed.
Lemma live_consulted s : live s = consulted (impls s). Proof. reflexivity. Qed.
Lemma tally_votes s ans r : lookup r (tally ans (impls s) []) = match voters s ans r with [] => None | _ => Some (backing s ans r) end.
Proof. destruct (tally_spec ans (impls s) [] ltac:(constructor)) as [_ L]. rewrite L. unfold backing, voters, live. fold (consulted (impls s)). change (fun x : impl => negb (flt (score x) (dlit 2 10))) with (fun x => negb (excluded x)). fold (consulted (impls s)). destruct (filter (answers ans r) (consulted (impls s))); reflexivity. Qed.
Lemma tally_sorted s ans : vkeys (tally ans (impls s) []).
Proof. apply (tally_spec ans (impls s) [] ltac:(constructor)). Qed.

(** ** Sums *)
Local Open Scope R_scope.
Definition total (x : sf) : Prop := okd x /\ 0 <= R x <= 9007199254740992.
Lemma big_sum : rnd64 (9007199254740992 + 1) = 9007199254740992.
Proof.
  destruct (ofZ_ex 1 eq_refl) as [O1 R1]. assert (Ob : okd (dofZ (2^53))) by (split; vm_compute; reflexivity).
  assert (Rb : R (dofZ (2^53)) = 9007199254740992).
  { vm_compute dofZ. unfold R, SF2R, F2R. simpl. lra. }
  destruct (add_d (dofZ (2^53)) (dofZ 1) Ob O1) as [_ E]; [rewrite Rb, R1; unfold mid; lra|]. rewrite Rb, R1 in E. rewrite <- E, <- Rb at 1. reflexivity.
Qed.
Lemma add_total a w : total a -> unit_score w -> total (dadd a w) /\ R (dadd a w) = rnd64 (R a + R w).
Proof.
  intros [Oa Ba] [Ow Bw]. destruct (add_d a w Oa Ow) as [O E]; [unfold mid; lra|]. split; [|exact E]. split; [exact O|]. rewrite E. split; [apply rnd_pos; lra|].
  rewrite <- big_sum. apply rnd_mono. lra.
Qed.
Lemma zero_total : total (S754_zero false).
Proof. split; [split; reflexivity|]. cbn. lra. Qed.
Lemma sum_total ws a : total a -> Forall unit_score ws -> total (fold_left dadd ws a).
Proof. intros A F. revert a A. induction F as [|w t U F IH]; intros a A; [exact A|]. simpl. apply IH. apply add_total; assumption. Qed.
Lemma live_unit s : Inv s -> Forall unit_score (map score (live s)).
Proof. intros (_ & F & _). apply Forall_forall. intros y Hy. apply in_map_iff in Hy. destruct Hy as (x & <- & Hx). apply filter_In in Hx. rewrite Forall_forall in F. apply (F x). tauto. Qed.
Lemma voters_unit s ans r : Inv s -> Forall unit_score (map score (voters s ans r)).
Proof. intros I. apply live_unit in I. rewrite Forall_forall in *. intros y Hy. apply I. apply in_map_iff in Hy. destruct Hy as (x & <- & Hx). apply in_map. apply filter_In in Hx. tauto. Qed.
Lemma backing_total s ans r : Inv s -> total (backing s ans r).
Proof. intros I. apply sum_total; [apply zero_total|]. apply voters_unit. exact I. Qed.
Lemma top_spec {A} (w : A -> sf) (P : A -> A -> Prop) (asym : forall a b, P a b -> P b a -> False) l : forall best, (forall x, In x (best :: l) -> okd (w x)) -> StronglySorted P (best :: l) ->
  In (top w best l) (best :: l) /\ forall y, In y (best :: l) -> R (w y) <= R (w (top w best l)) /\ (R (w y) = R (w (top w best l)) -> y = top w best l \/ P (top w best l) y).
Proof.
  induction l as [|x t IH]; intros best Ok S; cbn [top].
  - split; [simpl; auto|]. intros y [<-|[]]. split; [lra|auto].
  - apply StronglySorted_inv in S. destruct S as [S Hb].
    assert (Ob : okd (w best)) by (apply Ok; simpl; auto). assert (Ox : okd (w x)) by (apply Ok; simpl; auto).
    destruct (flt (w best) (w x)) eqn:C.
    + destruct (IH x) as [I H]; [intros; apply Ok; simpl in *; tauto|exact S|]. split; [simpl in *; tauto|]. intros y [<-|Hy]; [|exact (H y Hy)].
      pose proof (proj1 (flt_d _ _ Ob Ox) C). pose proof (H x (or_introl eq_refl)) as [L _]. split; [lra|]. intros E. lra.
    + pose proof (proj1 (flt_dF _ _ Ob Ox) C) as Le. apply StronglySorted_inv in S. destruct S as [S Hx].
      destruct (IH best) as [I H]; [intros y Hy; apply Ok; simpl in *; tauto|constructor; [exact S|]; inversion Hb; assumption|].
      split; [simpl in *; tauto|]. intros y [<-|[<-|Hy]]; [apply (H best); simpl; auto| |apply (H y); simpl; auto].
      destruct (H best (or_introl eq_refl)) as [L E']. split; [lra|]. intros E. right. assert (Eb : R (w best) = R (w (top w best t))) by lra.
      rewrite Forall_forall in Hb. destruct I as [I|I].
      * rewrite <- I. apply Hb. simpl. auto.
      * destruct (E' Eb) as [E2|E2]; [rewrite <- E2; apply Hb; simpl; auto|]. exfalso. apply (asym _ _ E2). apply Hb. simpl. auto.
Qed.
Lemma vkeys_pairs l : vkeys l -> StronglySorted (fun a b : Z * sf => (fst a < fst b)%Z) l.
Proof.
  unfold vkeys. induction l as [|x t IH]; simpl; intros H; constructor; apply StronglySorted_inv in H; destruct H as [Ht Hx]; [apply IH; exact Ht|].
  apply Forall_forall. intros y Hy. rewrite Forall_forall in Hx. apply Hx. apply in_map. exact Hy.
Qed.
Lemma ord_pairs l : ord l -> StronglySorted (fun a b => slt (nm a) (nm b)) l.
Proof.
  unfold ord. induction l as [|x t IH]; simpl; intros H; constructor; apply StronglySorted_inv in H; destruct H as [Ht Hx]; [apply IH; exact Ht|].
  apply Forall_forall. intros y Hy. rewrite Forall_forall in Hx. apply Hx. apply in_map. exact Hy.
Qed.
Lemma execute_winner s ans again : Inv s -> (0 < hsize s)%nat -> (exists r, voters s ans r <> []) ->
  exists r, execute s ans again = Ret (stepped s ans, Value r) /\ winner s ans r.
Proof.
  intros I P [r0 N]. rewrite execute_eq by assumption. cbv zeta. pose proof (tally_sorted s ans) as V. pose proof (tally_votes s ans) as L.
  destruct (tally ans (impls s) []) as [|v t] eqn:T.
  { specialize (L r0). simpl in L. destruct (voters s ans r0); [congruence|discriminate]. }
  eexists; split; [reflexivity|]. set (P' := fun a b : Z * sf => (fst a < fst b)%Z).
  assert (Val : forall k w, In (k, w) (v :: t) -> voters s ans k <> [] /\ w = backing s ans k).
  { intros k w H. apply (in_lookup k w _ V) in H. rewrite L in H. destruct (voters s ans k); [discriminate|]. split; [discriminate|congruence]. }
  destruct (top_spec snd P' ltac:(unfold P'; intros; lia) t v) as [Hin Hmax].
  { intros [k w] H. cbn [snd]. destruct (Val k w H) as [_ ->]. apply backing_total; exact I. }
  { apply vkeys_pairs. exact V. }
  destruct (top snd v t) as [k w] eqn:E. cbn [fst snd] in *. destruct (Val k w Hin) as [Nk ->]. split; [exact Nk|]. intros r' N'.
  assert (H' : In (r', backing s ans r') (v :: t)). { apply (in_lookup _ _ _ V). rewrite L. destruct (voters s ans r'); [congruence|reflexivity]. }
  destruct (Hmax _ H') as [Le Eq]. cbn [snd] in *. split; [exact Le|]. intros E'. destruct (Eq E') as [C|C]; [injection C as -> _; lia|]. unfold P' in C. cbn [fst] in C. lia.
Qed.
