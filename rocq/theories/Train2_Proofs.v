(** The passes of a training call change nothing but the counter of checks and the layer copies. *)
From Coq Require Import List NArith ZArith Bool Arith Lia SpecFloat.
Import ListNotations.
From Verif Require Import Outcome Words Floats Approx_Model Bits_Model PNN_Model PNN_Spec PNN_Proofs PNN3_Proofs PNN5_Proofs Train_Model Train_Spec Train_Proofs.
Local Open Scope nat_scope.

Definition at_ (s : pnn) (c : N) (m : list (list (list N) * list N)) : pnn := with_mirror (with_counter s c) m.
Lemma at_self s : s = at_ s (counter s) (mirror s). Proof. destruct s; reflexivity. Qed.
Lemma Inv_at s c m : Inv s -> Inv (at_ s c m). Proof. intros []; constructor; assumption. Qed.
Lemma at_counter s c m c' : with_counter (at_ s c m) c' = at_ s c' m. Proof. reflexivity. Qed.
Lemma at_mirror s c m m' : with_mirror (at_ s c m) m' = at_ s c m'. Proof. reflexivity. Qed.

Section S.
Variables (s : pnn) (samples : list (list N * list N)).
Hypothesis HI : Inv s.
Hypothesis Hin : 0 < hd O (sizes s).
Hypothesis HF : Forall (fun p => length (fst p) = hd O (sizes s) /\ length (snd p) = last (sizes s) O) samples.
Let f := network (params s) (acts s).
Definition right (g : list N -> list N) (p : list N * list N) : bool := Nat.eqb (argmax (g (fst p))) (argmax (snd p)).
Definition acc_of (g : list N -> list N) (sam : list (list N * list N)) : sf := sdiv (sofZ (Z.of_nat (length (filter (right g) sam)))) (sofZ (Z.of_nat (length sam))).

Lemma fwd c m x : length x = hd O (sizes s) -> exists c', forward (at_ s c m) x (S754_zero false) no_draws = Ret (f x, at_ s c' m).
Proof. intros Hx. destruct (forward_quiet (at_ s c m) x (S754_zero false) no_draws (Inv_at _ _ _ HI) (no_vote_zero _) Hx) as [c' E]. exists c'. rewrite E. reflexivity. Qed.
Lemma count_ok sam c m n : Forall (fun p => length (fst p) = hd O (sizes s) /\ length (snd p) = last (sizes s) O) sam ->
  exists c', count_correct (at_ s c m) sam n = Ret ((n + N.of_nat (length (filter (right f) sam)))%N, at_ s c' m).
Proof.
  intros H; revert c n; induction H as [|[x y] sam [Hx Hy] Hs IH]; intros c n; cbn [count_correct].
  - exists c. cbn. rewrite N.add_0_r. reflexivity.
  - destruct (fwd c m x Hx) as [c1 E1]. rewrite E1; cbn [obind fst snd filter]. unfold right at 1; cbn [fst snd].
    destruct (Nat.eqb (argmax (f x)) (argmax y)).
    + destruct (IH c1 (n + 1)%N) as [c' E]. exists c'. rewrite E. cbn [length]. do 2 f_equal. lia.
    + apply IH.
Qed.
Lemma acc_ok c m : exists c', accuracy (at_ s c m) samples = Ret (acc_of f samples, at_ s c' m).
Proof. destruct (count_ok samples c m 0%N HF) as [c' E]. exists c'. unfold accuracy. rewrite E. cbn [obind fst snd]. unfold acc_of. rewrite N.add_0_l, nat_N_Z. reflexivity. Qed.
Lemma tr1 c m x y : length x = hd O (sizes s) -> length y = last (sizes s) O -> exists l c', train (at_ s c m) x y 1 0%N = Ret (l, at_ s c' m).
Proof.
  intros Hx Hy. destruct (train_mse (at_ s c m) x y [(x, y)] 1 0%N (Inv_at _ _ _ HI) Hin) as [c' E].
  { split; [symmetry; apply app_nil_r|]. split; [symmetry; apply app_nil_r|]. split; [discriminate|]. constructor; [split; assumption|constructor]. }
  eexists _, c'. rewrite E. reflexivity.
Qed.
Lemma train_on_ok sam c m : Forall (fun p => length (fst p) = hd O (sizes s) /\ length (snd p) = last (sizes s) O) sam -> exists c', train_on (at_ s c m) sam = Ret (at_ s c' m).
Proof.
  intros H; revert c; induction H as [|[x y] sam [Hx Hy] Hs IH]; intros c; cbn [train_on]; [exists c; reflexivity|].
  destruct (tr1 c m x y Hx Hy) as (l & c1 & E). rewrite E. cbn [obind snd]. apply IH.
Qed.
Lemma train_order_ok order c m : Forall (fun k => (Z.to_nat k < length samples)%nat) order -> exists c', train_order (at_ s c m) samples order = Ret (at_ s c' m).
Proof.
  intros H; revert c; induction H as [|k order Hk Ho IH]; intros c; cbn [train_order]; [exists c; reflexivity|].
  destruct (nth_error samples (Z.to_nat k)) as [[x y]|] eqn:E; [|apply nth_error_None in E; lia].
  rewrite Forall_forall in HF. destruct (HF (x, y) (nth_error_In _ _ E)) as [Hx Hy]. destruct (tr1 c m x y Hx Hy) as (l & c1 & E1). rewrite E1. cbn [obind snd]. apply IH.
Qed.
Lemma train_order_ret order c m s' : train_order (at_ s c m) samples order = Ret s' -> exists c', s' = at_ s c' m.
Proof.
  revert c; induction order as [|k order IH]; intros c H; cbn [train_order] in H; [exists c; congruence|].
  destruct (nth_error samples (Z.to_nat k)) as [[x y]|] eqn:E; [|discriminate H].
  rewrite Forall_forall in HF. destruct (HF (x, y) (nth_error_In _ _ E)) as [Hx Hy]. destruct (tr1 c m x y Hx Hy) as (l & c1 & E1). rewrite E1 in H. exact (IH c1 H).
Qed.

(** an injection round *)
Definition lost : sf := ssub (acc_of f samples) (acc_of f samples).
Definition after_round (r : rat) (d : idraw) (m : list (list (list N) * list N)) : rat :=
  with_drop (with_flips r (flips r + hits r d m)) (sadd (drop r) lost) (sadd (recovery r) (sdiv lost (fmax (slit 1 1000) lost))).
Lemma round_eq r c m freq d :
  exists c', round r (at_ s c m) samples freq d =
    if (fitsb int32 (hits r d m) && fitsb int32 (flips r + hits r d m) && fitsb int32 (10 * freq))%bool then Ret (after_round r d m, at_ s c' (struck r d m)) else UB UB_signed_overflow.
Proof.
  unfold round. destruct (acc_ok c m) as [c1 E1]. rewrite E1. cbn [obind fst snd]. rewrite inject_eq. change (mirror (at_ s c1 m)) with m.
  destruct (fitsb int32 (hits r d m) && fitsb int32 (flips r + hits r d m))%bool; cbn [obind andb]; [|exists c; reflexivity]. cbn [fst snd]. rewrite at_mirror.
  destruct (acc_ok c1 (struck r d m)) as [c2 E2]. rewrite E2. cbn [obind fst snd].
  destruct (train_on_ok samples c2 (struck r d m) HF) as [c3 E3]. rewrite E3. cbn [obind].
  destruct (acc_ok c3 (struck r d m)) as [c4 E4]. rewrite E4. cbn [obind fst snd]. exists c4.
  unfold arith. change (isg int32) with true. cbn iota. destruct (fitsb int32 (10 * freq)); cbn [obind]; reflexivity.
Qed.

(** the analysis *)
Lemma upd_id {A} (l : list A) i g : (forall x, nth_error l i = Some x -> g x = x) -> upd l i g = l.
Proof. revert i; induction l as [|x l IH]; intros [|i] H; cbn [upd]; auto; f_equal; auto. Qed.
Lemma upd_upd {A} (l : list A) i g h : upd (upd l i g) i h = upd l i (fun x => h (g x)).
Proof. revert i; induction l as [|x l IH]; intros [|i]; cbn [upd]; f_equal; auto. Qed.
Lemma upd_ext {A} (l : list A) i g h : (forall x, g x = h x) -> upd l i g = upd l i h.
Proof. intros E; revert i; induction l as [|x l IH]; intros [|i]; cbn [upd]; f_equal; auto. Qed.
Lemma put_back (m : list (list (list N) * list N)) l i j v o : get3 (map fst m) l i j = Some o ->
  upd (upd m l (fun p => (upd (fst p) i (fun row => upd row j (fun _ => v)), snd p))) l (fun p => (upd (fst p) i (fun row => upd row j (fun _ => o)), snd p)) = m.
Proof.
  intros H. rewrite upd_upd. apply upd_id. intros [w b] E. cbn [fst snd]. f_equal. rewrite upd_upd. apply upd_id. intros row Er. rewrite upd_upd.
  apply upd_id. intros y Ey. unfold get3 in H. rewrite nth_error_map, E in H. cbn [option_map fst] in H. rewrite Er, Ey in H. injection H as H. symmetry; exact H.
Qed.
Definition level_ (expf : sf -> sf) (x y : list N) : sf := sigmoid expf (ssub (sf32 (mean_squared_error f [(x, y)])) (sf32 (mean_squared_error f [(x, y)]))).
Lemma loss1 c m x y : length x = hd O (sizes s) -> length y = last (sizes s) O -> exists c', calculateLoss (at_ s c m) x y = Ret (mean_squared_error f [(x, y)], at_ s c' m).
Proof.
  intros Hx Hy. destruct (calculateLoss_mse (at_ s c m) x y [(x, y)] (Inv_at _ _ _ HI) Hin) as [c' E].
  { split; [symmetry; apply app_nil_r|]. split; [symmetry; apply app_nil_r|]. split; [discriminate|]. constructor; [split; assumption|constructor]. }
  exists c'. rewrite E. reflexivity.
Qed.
Lemma test_weight_eq expf k c m x y l i j bit : length x = hd O (sizes s) -> length y = last (sizes s) O ->
  exists c', test_weight expf k (at_ s c m) x y (mean_squared_error f [(x, y)]) l i j bit =
    match get3 (map fst m) l i j, get3 k l i j with Some _, Some _ => Ret (put3 k l i j (level_ expf x y), at_ s c' m) | _, _ => UB UB_out_of_bounds end.
Proof.
  intros Hx Hy. unfold test_weight. change (mirror (at_ s c m)) with m. destruct (get3 (map fst m) l i j) as [o|] eqn:E; [|exists c; reflexivity].
  rewrite at_mirror. destruct (loss1 c (upd m l (fun p => (upd (fst p) i (fun row => upd row j (fun _ => flipBit o bit)), snd p))) x y Hx Hy) as [c' El].
  rewrite El. cbn [obind fst snd]. exists c'. destruct (get3 k l i j); [|reflexivity].
  rewrite at_mirror. cbn [mirror at_ with_mirror]. rewrite (put_back m l i j _ o E). reflexivity.
Qed.
(* the map after some tests of a layer *)
Definition mark (k : list (list (list sf))) (v : sf) (l : nat) (ts : list (nat * nat * N)) := fold_left (fun k t => put3 k l (fst (fst t)) (snd (fst t)) v) ts k.
Lemma test_weights_ret expf k c m x y l ts q : length x = hd O (sizes s) -> length y = last (sizes s) O ->
  test_weights expf k (at_ s c m) x y (mean_squared_error f [(x, y)]) l ts = Ret q -> exists c', q = (mark k (level_ expf x y) l ts, at_ s c' m).
Proof.
  intros Hx Hy; revert k c; induction ts as [|[[i j] bit] ts IH]; intros k c H; cbn [test_weights] in H; [exists c; injection H as <-; reflexivity|].
  destruct (test_weight_eq expf k c m x y l i j bit Hx Hy) as [c' E]. rewrite E in H. destruct (get3 (map fst m) l i j); [|discriminate H]. destruct (get3 k l i j); [|discriminate H].
  cbn [obind fst snd] in H. destruct (IH _ _ H) as [c2 ->]. exists c2. reflexivity.
Qed.
Definition lens {A} (k : list (list (list A))) := map (map (@length A)) k.
Lemma upd_length {A} (l : list A) i g : length (upd l i g) = length l.
Proof. revert i; induction l; intros [|i]; cbn; auto. Qed.
Lemma map_upd {A B} (g : A -> B) (l : list A) i h : (forall x, g (h x) = g x) -> map g (upd l i h) = map g l.
Proof. intros H; revert i; induction l as [|x l IH]; intros [|i]; cbn; f_equal; auto. Qed.
Lemma lens_put3 {A} (k : list (list (list A))) l i j v : lens (put3 k l i j v) = lens k.
Proof. unfold lens, put3. apply map_upd. intros x. apply map_upd. intros z. apply upd_length. Qed.
Lemma lens_mark k v l ts : lens (mark k v l ts) = lens k.
Proof. revert k; induction ts as [|t ts IH]; intros k; [reflexivity|]. cbn [mark fold_left]. unfold mark in IH. rewrite IH. apply lens_put3. Qed.
Lemma get3_lens {A B} (k : list (list (list A))) (k' : list (list (list B))) l i j : lens k = lens k' -> (exists v, get3 k l i j = Some v) -> exists v, get3 k' l i j = Some v.
Proof.
  intros H [v G]. unfold get3 in *. destruct (nth_error k l) as [w|] eqn:E1; [|discriminate]. destruct (nth_error w i) as [row|] eqn:E2; [|discriminate].
  pose proof (f_equal (fun z => nth_error z l) H) as H1. unfold lens in H1. rewrite !nth_error_map, E1 in H1. destruct (nth_error k' l) as [w'|]; [|discriminate H1].
  injection H1 as H1. pose proof (f_equal (fun z => nth_error z i) H1) as H2. cbn beta in H2; rewrite !nth_error_map, E2 in H2. destruct (nth_error w' i) as [row'|]; [|discriminate H2].
  injection H2 as H2. destruct (nth_error row' j) as [v'|] eqn:E3; [exists v'; reflexivity|]. apply nth_error_None in E3. assert (j < length row) by (apply nth_error_Some; congruence). lia.
Qed.
Lemma test_weights_ok expf k c m x y l ts : length x = hd O (sizes s) -> length y = last (sizes s) O -> lens k = lens (map fst m) ->
  Forall (fun t : nat * nat * N => exists v, get3 (map fst m) l (fst (fst t)) (snd (fst t)) = Some v) ts ->
  exists c', test_weights expf k (at_ s c m) x y (mean_squared_error f [(x, y)]) l ts = Ret (mark k (level_ expf x y) l ts, at_ s c' m).
Proof.
  intros Hx Hy HL H; revert k c HL; induction H as [|[[i j] bit] ts G Hts IH]; intros k c HL; cbn [test_weights]; [exists c; reflexivity|].
  cbn [fst snd] in G. destruct (test_weight_eq expf k c m x y l i j bit Hx Hy) as [c' E]. rewrite E. pose proof (get3_lens _ k l i j (eq_sym HL) G) as [v' G']. destruct G as [v G].
  rewrite G, G'. cbn [obind fst snd]. destruct (IH (put3 k l i j (level_ expf x y)) c') as [c2 E2]; [rewrite lens_put3; exact HL|]. exists c2. exact E2.
Qed.
End S.
