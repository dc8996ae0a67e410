(** Proofs for Residual: files. *)
From Coq Require Import List NArith ZArith Bool Arith Lia Permutation SpecFloat.
Import ListNotations.
From Verif Require Import Outcome Words Floats MBP_Model PNN_Model PNN_Spec PNN_Proofs PNN2_Proofs PNN3_Proofs PNN6_Proofs Residual_Model Residual_Spec Residual_Proofs.
Local Open Scope N_scope.

Lemma le_length k v : length (le k v) = k.
Proof. revert v; induction k; intros v; cbn [le length]; auto. Qed.
Lemma unle_le k : forall v, v < 256 ^ N.of_nat k -> unle (le k v) = v.
Proof.
  induction k as [|k IH]; intros v H; cbn [le unle]; [change (256 ^ N.of_nat 0) with 1 in H; lia|].
  rewrite IH.
  - pose proof (N.div_mod v 256 ltac:(discriminate)) as D. set (q := v / 256) in *. set (m := v mod 256) in *. clearbody q m. lia.
  - rewrite Nat2N.inj_succ, N.pow_succ_r' in H. apply N.div_lt_upper_bound; [discriminate|exact H].
Qed.
Lemma unle_firstn k : forall n v, unle (firstn n (le k v)) <= v.
Proof.
  induction k as [|k IH]; intros n v; cbn [le]; [rewrite firstn_nil; cbn; lia|]. destruct n as [|n]; cbn [firstn unle]; [lia|].
  specialize (IH n (v / 256)). pose proof (N.div_mod v 256 ltac:(discriminate)) as D. set (q := v / 256) in *. set (m := v mod 256) in *. set (u := unle _) in *. clearbody q m u. lia.
Qed.
Lemma le8 v : size_t v -> unle (le 8 v) = v.
Proof. intros H. apply unle_le. exact H. Qed.
Lemma le4 v : v < 2 ^ 32 -> unle (le 4 v) = v.
Proof. intros H. apply unle_le. exact H. Qed.
Lemma words_all w r : Forall (fun w => w < 2 ^ 32) w -> words (length w) (concat (map (le 4) w) ++ r) = w.
Proof.
  induction 1 as [|v w Hv H IH]; [reflexivity|]. cbn [map concat length words]. rewrite <- app_assoc.
  rewrite firstn_app, le_length. replace (firstn 4 (le 4 v)) with (le 4 v) by (symmetry; apply firstn_all2; rewrite le_length; lia). change (4 - 4)%nat with O. rewrite firstn_O, app_nil_r, le4 by exact Hv.
  rewrite skipn_app, le_length. change (4 - 4)%nat with O. replace (skipn 4 (le 4 v)) with (@nil N) by (symmetry; apply skipn_all2; rewrite le_length; lia). cbn [app skipn]. rewrite IH. reflexivity.
Qed.
Lemma concat_le4 w : length (concat (map (le 4) w)) = (4 * length w)%nat.
Proof. induction w as [|v w IH]; [reflexivity|]. cbn [map concat]. rewrite app_length, le_length, IH. cbn [length]. lia. Qed.

(** reading from the beginning of a file that starts with [a], cut after n bytes *)
Definition good_at (n : nat) (b : list N) : stream := mkStream (firstn n b) true.
Definition dead : stream := mkStream [] false.
Lemma read_cut a b n k : k = N.of_nat (length a) ->
  read k (good_at n (a ++ b)) = if Nat.leb (length a) n then (a, good_at (n - length a) b) else (firstn n a, dead).
Proof.
  intros ->. unfold read, good_at. cbn [good rest]. rewrite firstn_length, app_length. destruct (Nat.leb_spec (length a) n) as [H|H].
  - replace (N.of_nat (length a) <=? _) with true by (symmetry; apply N.leb_le; lia). rewrite Nat2N.id. rewrite firstn_firstn, Nat.min_l by lia.
    rewrite firstn_app, Nat.sub_diag, firstn_all, firstn_O, app_nil_r. f_equal. f_equal. rewrite firstn_app. rewrite firstn_all2 by lia. rewrite skipn_app, skipn_all, Nat.sub_diag. reflexivity.
  - replace (N.of_nat (length a) <=? _) with false by (symmetry; apply N.leb_gt; lia). rewrite firstn_app. replace (n - length a)%nat with O by lia. rewrite firstn_O, app_nil_r. reflexivity.
Qed.
Lemma read_dead k : read k dead = ([], dead). Proof. reflexivity. Qed.
Lemma read_zero_dead : read_zero dead = (0, dead). Proof. reflexivity. Qed.
Lemma read_zero_cut v b n : size_t v -> read_zero (good_at n (le 8 v ++ b)) = if Nat.leb 8 n then (v, good_at (n - 8) b) else (unle (firstn n (le 8 v)), dead).
Proof.
  intros H. unfold read_zero. rewrite (read_cut (le 8 v) b n 8) by reflexivity. rewrite le_length. destruct (Nat.leb 8 n); [|reflexivity]. rewrite le8 by exact H. reflexivity.
Qed.
(** a failed stream: the remaining connections all get the empty key *)
Definition nothing : conn := mkConn (fun v => v) [] false.
Lemma load_dead alloc k m : load_conns alloc k dead m = Ret (true, match k with O => m | S _ => put [] nothing m end).
Proof.
  revert m; induction k as [|k IH]; intros m; [reflexivity|]. cbn [load_conns]. rewrite read_zero_dead. cbn [N.leb N.compare orb negb]. rewrite read_dead. rewrite read_zero_dead. cbn.
  change (load_conns alloc k dead (put [] nothing m) = Ret (true, put [] nothing m)). rewrite IH. destruct k; [reflexivity|]. f_equal. f_equal.
  induction m as [|[k0 c0] m IHm]; cbn [put]; [rewrite str_eqb_refl; reflexivity|]. destruct (str_eqb_spec [] k0) as [<-|]; cbn [put]; [rewrite str_eqb_refl; reflexivity|].
  destruct (str_eqb_spec [] k0); [contradiction|]. rewrite IHm. reflexivity.
Qed.
Definition entry_ok (p : str * conn) : Prop :=
  Forall (fun c => c < 256) (fst p) /\ size_t (N.of_nat (length (fst p))) /\ Forall (fun w => w < 2 ^ 32) (cweights (snd p)) /\ 4 * N.of_nat (length (cweights (snd p))) < 2 ^ 64.
Lemma save_length p : length (save_conn p) = (8 + length (fst p) + 8 + 4 * length (cweights (snd p)) + 1)%nat.
Proof. destruct p as [k c]. cbn [save_conn fst snd]. rewrite !app_length, !le_length, concat_le4. cbn [length]. lia. Qed.
Lemma filled_all k f : filled (N.of_nat (length k)) f k = k.
Proof. unfold filled. rewrite Nat2N.id, Nat.sub_diag. cbn [repeat]. apply app_nil_r. Qed.
(** a whole entry *)
Lemma load_entry alloc k p b n m : entry_ok p -> (forall z, z <= N.of_nat (length (save_conn p)) -> alloc z = true) -> (length (save_conn p) <= n)%nat ->
  load_conns alloc (S k) (good_at n (save_conn p ++ b)) m = load_conns alloc k (good_at (n - length (save_conn p)) b) (put (fst p) (snd (plain_conn p)) m).
Proof.
  intros (E1 & E2 & E3 & E4) HA HN. pose proof (save_length p) as SL. destruct p as [key c]. cbn [fst snd] in *. rewrite SL in HA, HN. try rewrite SL. cbn [load_conns]. cbn [save_conn]. rewrite <- !app_assoc.
  rewrite read_zero_cut by exact E2. replace (Nat.leb 8 n) with true by (symmetry; apply Nat.leb_le; lia).
  rewrite HA by lia. rewrite orb_true_r. cbn [negb]. rewrite read_cut by reflexivity. replace (Nat.leb (length key) (n - 8)) with true by (symmetry; apply Nat.leb_le; lia).
  rewrite filled_all. rewrite read_zero_cut by (unfold size_t; lia). replace (Nat.leb 8 _) with true by (symmetry; apply Nat.leb_le; lia).
  rewrite HA by lia. rewrite andb_false_r.
  assert (Q : (if 0 <? N.of_nat (length (cweights c)) then read (4 * N.of_nat (length (cweights c))) (good_at (n - 8 - length key - 8) (concat (map (le 4) (cweights c)) ++ [if protected c then 1 else 0] ++ b))
               else ([], good_at (n - 8 - length key - 8) (concat (map (le 4) (cweights c)) ++ [if protected c then 1 else 0] ++ b))) =
              (concat (map (le 4) (cweights c)), good_at (n - 8 - length key - 8 - 4 * length (cweights c)) ([if protected c then 1 else 0] ++ b))).
  { destruct (N.ltb_spec 0 (N.of_nat (length (cweights c)))) as [L|L].
    - rewrite read_cut by (rewrite concat_le4; lia). rewrite concat_le4. replace (Nat.leb _ _) with true by (symmetry; apply Nat.leb_le; lia). reflexivity.
    - destruct (cweights c); [|cbn [length] in L; lia]. cbn [map concat app length]. rewrite Nat.mul_0_r, Nat.sub_0_r. reflexivity. }
  rewrite Q. rewrite read_cut by reflexivity. cbn [length]. replace (Nat.leb 1 _) with true by (symmetry; apply Nat.leb_le; lia).
  replace (filled (4 * N.of_nat (length (cweights c))) 0 (concat (map (le 4) (cweights c)))) with (concat (map (le 4) (cweights c)) ++ []).
  2:{ unfold filled. f_equal. rewrite concat_le4. replace (N.to_nat _ - _)%nat with O by lia. reflexivity. }
  rewrite Nat2N.id, words_all by exact E3.
  replace (n - 8 - length key - 8 - 4 * length (cweights c) - 1)%nat with (n - (8 + length key + 8 + 4 * length (cweights c) + 1))%nat by lia.
  unfold plain_conn. cbn [snd]. destruct (protected c); reflexivity.
Qed.
(** an entry that is cut *)
Lemma load_cut alloc k p b n m : entry_ok p -> (forall z, z <= N.of_nat (length (save_conn p)) -> alloc z = true) -> (n < length (save_conn p))%nat ->
  exists key w, load_conns alloc (S k) (good_at n (save_conn p ++ b)) m = load_conns alloc k dead (put key (mkConn (fun v => v) w false) m).
Proof.
  intros (E1 & E2 & E3 & E4) HA HN. pose proof (save_length p) as SL. destruct p as [key c]. cbn [fst snd] in *. rewrite SL in HA, HN. try rewrite SL. cbn [load_conns]. cbn [save_conn]. rewrite <- !app_assoc.
  rewrite read_zero_cut by exact E2. destruct (Nat.leb_spec 8 n) as [L1|L1].
  2:{ pose proof (unle_firstn 8 n (N.of_nat (length key))) as U. set (u := unle _) in *. rewrite HA by lia. rewrite orb_true_r. cbn [negb]. rewrite read_dead, read_zero_dead. cbn [N.ltb N.compare andb]. rewrite read_dead. eexists _, _. reflexivity. }
  rewrite HA by lia. rewrite orb_true_r. cbn [negb]. rewrite read_cut by reflexivity. destruct (Nat.leb_spec (length key) (n - 8)) as [L2|L2].
  2:{ rewrite read_zero_dead. cbn [N.ltb N.compare andb]. rewrite read_dead. eexists _, _. reflexivity. }
  rewrite read_zero_cut by (unfold size_t; lia). destruct (Nat.leb_spec 8 (n - 8 - length key)) as [L3|L3].
  2:{ pose proof (unle_firstn 8 (n - 8 - length key) (N.of_nat (length (cweights c)))) as U. set (u := unle _) in *. rewrite HA by lia. rewrite andb_false_r.
      destruct (0 <? u); rewrite ?read_dead; eexists _, _; reflexivity. }
  rewrite HA by lia. rewrite andb_false_r. destruct (N.ltb_spec 0 (N.of_nat (length (cweights c)))) as [L|L].
  - rewrite read_cut by (rewrite concat_le4; lia). rewrite concat_le4. destruct (Nat.leb_spec (4 * length (cweights c)) (n - 8 - length key - 8)) as [L4|L4].
    + rewrite read_cut by reflexivity. cbn [length]. replace (Nat.leb 1 _) with false by (symmetry; apply Nat.leb_gt; lia). replace (n - 8 - length key - 8 - 4 * length (cweights c))%nat with O by lia. cbn [firstn]. eexists _, _. reflexivity.
    + rewrite read_dead. eexists _, _. reflexivity.
  - destruct (cweights c); [|cbn [length] in L; lia]. cbn [map concat app]. replace (n - 8 - length key - 8)%nat with O by (cbn [length] in *; lia). cbn. eexists _, _. reflexivity.
Qed.
Definition puts (it : list (str * conn)) (m : list (str * conn)) : list (str * conn) := fold_left (fun m p => put (fst p) (snd (plain_conn p)) m) it m.
Lemma load_prefix alloc it : Forall entry_ok it -> (forall z, z <= N.of_nat (length (concat (map save_conn it))) -> alloc z = true) ->
  forall k n m, (k <= length it)%nat -> exists m', load_conns alloc k (good_at n (concat (map save_conn it))) m = Ret (true, m') /\
    ((length (concat (map save_conn it)) <= n)%nat -> k = length it -> m' = puts it m).
Proof.
  induction 1 as [|p it Hp H IH]; intros HA k n m Hk.
  - cbn [length] in Hk. assert (k = O) by lia. subst k. exists m. split; [reflexivity|]. intros _ _. reflexivity.
  - cbn [map concat] in *. rewrite app_length in HA. destruct k as [|k].
    { exists m. split; [reflexivity|]. intros _ F. discriminate. }
    destruct (Nat.le_gt_cases (length (save_conn p)) n) as [L|L].
    + rewrite load_entry; [|exact Hp|intros z Hz; apply HA; lia|exact L]. destruct (IH ltac:(intros z Hz; apply HA; lia) k (n - length (save_conn p))%nat (put (fst p) (snd (plain_conn p)) m)) as (m' & E & F); [cbn [length] in Hk; lia|].
      exists m'. split; [exact E|]. intros G1 G2. rewrite app_length in G1. cbn [length] in G2. unfold puts. cbn [fold_left]. apply F; lia.
    + destruct (load_cut alloc k p (concat (map save_conn it)) n m Hp ltac:(intros z Hz; apply HA; lia) L) as (key & w & E). rewrite E, load_dead. eexists. split; [reflexivity|].
      intros G. rewrite app_length in G. lia.
Qed.
Lemma puts_fresh it : forall m, NoDup (map fst it) -> (forall k, In k (map fst it) -> ~ In k (map fst m)) -> puts it m = m ++ map plain_conn it.
Proof.
  induction it as [|p it IH]; intros m ND HF; cbn [puts fold_left map]; [symmetry; apply app_nil_r|].
  inversion ND as [|? ? N1 N2]; subst.
  assert (PF : put (fst p) (snd (plain_conn p)) m = m ++ [plain_conn p]).
  { specialize (HF (fst p) (or_introl eq_refl)). clear - HF. induction m as [|[k c] m IH]; cbn [put app]; [reflexivity|]. destruct (str_eqb_spec (fst p) k) as [Ek|Ek]; [exfalso; apply HF; left; symmetry; exact Ek|].
    f_equal. apply IH. intros Q; apply HF; right; exact Q. }
  change (puts it (put (fst p) (snd (plain_conn p)) m) = m ++ plain_conn p :: map plain_conn it). rewrite PF, IH; [rewrite <- app_assoc; reflexivity|exact N2|].
  intros k Hk Q. rewrite map_app in Q. apply in_app_or in Q. destruct Q as [Q|[<-|[]]]; [apply (HF k (or_intror Hk) Q)|]. cbn [plain_conn fst] in Hk. contradiction.
Qed.
(** the whole load of a file cut after n bytes *)
Lemma load_file alloc s it n : storable it -> (forall z, z <= N.of_nat (length (file_of it)) -> alloc z = true) ->
  ((n < 8)%nat -> loadFromFile s (Some (firstn n (file_of it))) alloc = UB UB_uninit) /\
  ((8 <= n)%nat -> exists m, loadFromFile s (Some (firstn n (file_of it))) alloc = Ret (true, mkRNN (base s) m) /\ ((length (file_of it) <= n)%nat -> m = map plain_conn it)).
Proof.
  intros (ND & SZ & HF) HA. unfold loadFromFile. change (mkStream (firstn n (file_of it)) true) with (good_at n (file_of it)). unfold file_of in *. set (body := concat (map save_conn it)) in *.
  assert (FL : length (le 8 0 ++ le 8 (N.of_nat (length it)) ++ body) = (16 + length body)%nat) by (rewrite !app_length, !le_length; lia).
  assert (R0 : read 8 (good_at n (le 8 0 ++ le 8 (N.of_nat (length it)) ++ body)) = if Nat.leb 8 n then (le 8 0, good_at (n - 8) (le 8 (N.of_nat (length it)) ++ body)) else (firstn n (le 8 0), dead)) by (rewrite (read_cut (le 8 0)) by reflexivity; rewrite le_length; reflexivity).
  unfold read_raw. rewrite R0. split; intros Hn.
  - replace (Nat.leb 8 n) with false by (symmetry; apply Nat.leb_gt; lia). rewrite firstn_length, le_length. replace (Nat.eqb (Nat.min n 8) 8) with false by (symmetry; apply Nat.eqb_neq; lia). reflexivity.
  - replace (Nat.leb 8 n) with true by (symmetry; apply Nat.leb_le; lia). rewrite le_length. change (Nat.eqb 8 8) with true. cbv iota. cbn [obind fst snd]. change (unle (le 8 0)) with 0. rewrite HA by lia. cbn [negb N.mul N.to_nat load_layers obind].
    rewrite read_zero_cut by exact SZ.
    assert (AL : forall z, z <= N.of_nat (length body) -> alloc z = true) by (intros z Hz; apply HA; rewrite FL; lia).
    destruct (Nat.leb_spec 8 (n - 8)) as [L|L].
    + destruct (load_prefix alloc it HF AL (N.to_nat (N.of_nat (length it))) (n - 8 - 8)%nat []) as (m & E & F); [lia|]. fold body in E. rewrite E. cbn [obind fst snd]. exists m. split; [reflexivity|].
      intros G. rewrite F; [|fold body; lia|apply Nat2N.id]. rewrite puts_fresh; [reflexivity|exact ND|intros k _ []].
    + rewrite load_dead. cbn [obind fst snd]. eexists. split; [reflexivity|]. intros G. lia.
Qed.

(** ** loss *)
Lemma fold_combine {A B C} (f : A -> B -> C -> A) (da : B) (db : C) (l : list B) : forall (r : list C) (a : A),
  fold_left (fun acc i => f acc (nth i l da) (nth i r db)) (seq 0 (Nat.min (length l) (length r))) a = fold_left (fun acc p => f acc (fst p) (snd p)) (combine l r) a.
Proof.
  induction l as [|x l IH]; intros [|y r] a; try reflexivity. cbn [length Nat.min combine fold_left fst snd seq]. rewrite <- seq_shift, <- IH.
  assert (G : forall L b, fold_left (fun acc i => f acc (nth i (x :: l) da) (nth i (y :: r) db)) (map S L) b = fold_left (fun acc i => f acc (nth i l da) (nth i r db)) L b) by (induction L as [|i L IHL]; intros b; [reflexivity|]; cbn [map fold_left nth]; apply IHL).
  apply G.
Qed.
Lemma rloss_value s data labels : Inv (base s) -> length data = hd O (sizes (base s)) ->
  exists s', rcalculateLoss s data labels = Ret (label_error (network (params (base s)) (acts (base s)) data) labels, s') /\ still s s'.
Proof.
  intros HI HL. assert (NV : no_vote (base s) (S754_zero false)) by (right; reflexivity). destruct (forward_quiet (base s) data (S754_zero false) no_draws HI NV HL) as (c & E).
  set (out := network (params (base s)) (acts (base s)) data) in *. exists (mkRNN (with_counter (base s) c) (conns s)).
  unfold rcalculateLoss, rforward. rewrite E. cbn [obind fst snd]. split.
  - f_equal. f_equal. unfold label_error. rewrite (fold_combine (fun acc u v => f32add acc (f32mul (f32sub u v) (f32sub u v)))). destruct out; reflexivity.
  - split; [|repeat split]. destruct (fwd_base _ _ _ _ _ _ HI E) as (I & _). exact I.
Qed.
Lemma rloss_rejects s data labels : length data <> hd O (sizes (base s)) -> rcalculateLoss s data labels = Throw E_invalid_argument.
Proof. intros H. unfold rcalculateLoss, rforward, forward. apply Nat.eqb_neq in H. rewrite H. reflexivity. Qed.
Lemma rtrain_value s data labels e l : Inv (base s) -> length data = hd O (sizes (base s)) ->
  exists s', rtrain_ s data labels e l = Ret (match e with O => l | S _ => label_error (network (params (base s)) (acts (base s)) data) labels end, s') /\ still s s'.
Proof.
  revert s l; induction e as [|e IH]; intros s l HI HL; cbn [rtrain_]; [exists s; split; [reflexivity|apply still_refl, HI]|].
  destruct (rloss_value s data labels HI HL) as (s1 & E & S1). rewrite E. cbn [obind fst snd]. destruct S1 as (A & B & C & D & F & G & K).
  destruct (IH s1 (label_error (network (params (base s)) (acts (base s)) data) labels) A) as (s2 & E2 & S2); [rewrite F; exact HL|]. exists s2. rewrite E2. rewrite C, D. split; [destruct e; reflexivity|].
  eapply still_trans; [|exact S2]. split; [exact A|]. repeat split; assumption.
Qed.
