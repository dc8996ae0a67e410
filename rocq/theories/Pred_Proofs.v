(** RadiationErrorPredictor. *)
From Coq Require Import List NArith ZArith Bool SpecFloat Lia Sorted.
Import ListNotations.
From Verif Require Import Outcome Words Floats Pred_Model Pred_Spec.
Local Open Scope Z_scope.

Lemma lex_eq a b : lex a b = Eq <-> a = b.
Proof.
  revert b. induction a as [|x a IH]; intros [|y b]; simpl; try (split; congruence). destruct (Z.compare_spec x y); [|split; [discriminate|intros E; injection E; lia]..].
  subst. rewrite IH. split; [intros ->; reflexivity|congruence].
Qed.
Lemma lex_refl a : lex a a = Eq. Proof. apply lex_eq. reflexivity. Qed.
Lemma lex_opp a b : lex a b = CompOpp (lex b a).
Proof. revert b. induction a as [|x a IH]; intros [|y b]; simpl; try reflexivity. rewrite (Z.compare_antisym y x). destruct (y ?= x); simpl; auto. Qed.
Lemma lex_trans a b c : lex a b = Lt -> lex b c = Lt -> lex a c = Lt.
Proof.
  revert b c. induction a as [|x a IH]; intros [|y b] [|z c]; simpl; try discriminate; try reflexivity.
  destruct (Z.compare_spec x y) as [->|L|L]; destruct (Z.compare_spec y z) as [->|M|M]; try discriminate; intros; destruct (Z.compare_spec x z) as [E|E|E] || destruct (Z.compare_spec y z) as [E|E|E] || idtac; try lia; try reflexivity; eauto.
  all: try (rewrite Z.compare_refl; eauto).
Qed.
Definition msorted (m : list (vec * vec)) : Prop := StronglySorted (fun a b => lex a b = Lt) (map fst m).
Lemma mput_keys k v m x : In x (map fst (mput k v m)) -> x = k \/ In x (map fst m).
Proof. induction m as [|[k' v'] r IH]; simpl; [intuition|]. destruct (lex k k'); simpl; intuition. Qed.
Lemma mput_sorted k v m : msorted m -> msorted (mput k v m).
Proof.
  unfold msorted. induction m as [|[k' v'] r IH]; simpl; intros H; [repeat constructor|]. apply StronglySorted_inv in H. destruct H as [Hr Hk]. destruct (lex k k') eqn:C; simpl.
  - constructor; assumption.
  - constructor; [constructor; assumption|]. constructor; [exact C|]. eapply Forall_impl; [|exact Hk]. simpl. intros. eapply lex_trans; eassumption.
  - constructor; [apply IH; exact Hr|]. apply Forall_forall. intros z Hz. apply mput_keys in Hz. destruct Hz as [->|Hz]; [rewrite lex_opp, C; reflexivity|]. rewrite Forall_forall in Hk. auto.
Qed.
Lemma mfind_absent k m : (forall x, In x (map fst m) -> lex k x = Lt) -> mfind k m = None.
Proof. induction m as [|[k' v'] r IH]; [reflexivity|]. simpl. intros H. rewrite (H k' (or_introl eq_refl)). apply IH. intros; apply H; auto. Qed.
Lemma mfind_put q k v m : msorted m -> mfind q (mput k v m) = if list_eq_dec Z.eq_dec q k then Some v else mfind q m.
Proof.
  unfold msorted. induction m as [|[k' v'] r IH]; simpl; intros H.
  - destruct (list_eq_dec Z.eq_dec q k) as [->|N]; [rewrite lex_refl; reflexivity|]. destruct (lex q k) eqn:C; try reflexivity. apply lex_eq in C. contradiction.
  - apply StronglySorted_inv in H. destruct H as [Hr Hk]. destruct (lex k k') eqn:C; simpl.
    + apply lex_eq in C. subst k'. destruct (list_eq_dec Z.eq_dec q k) as [->|N]; [rewrite lex_refl; reflexivity|]. destruct (lex q k) eqn:D; try reflexivity. apply lex_eq in D. contradiction.
    + destruct (list_eq_dec Z.eq_dec q k) as [->|N]; [rewrite lex_refl; reflexivity|]. destruct (lex q k) eqn:D; try reflexivity. apply lex_eq in D. contradiction.
    + rewrite (IH Hr). destruct (list_eq_dec Z.eq_dec q k) as [->|N]; [rewrite C; reflexivity|]. reflexivity.
Qed.
Lemma mput_nonempty k v m : mput k v m <> [].
Proof. destruct m as [|[a b] r]; simpl; [discriminate|]. destruct (lex k a); discriminate. Qed.

(** ** Teaching *)
Lemma learn_spec bad : forall good p, length bad = length good -> msorted (samples p) ->
  msorted (samples (learn p bad good)) /\ trained (learn p bad good) = trained p /\ detect_th (learn p bad good) = detect_th p /\ conf_th (learn p bad good) = conf_th p /\
  (bad = [] -> contexts (learn p bad good) = contexts p /\ samples (learn p bad good) = samples p) /\ (bad <> [] -> contexts (learn p bad good) <> [] /\ samples (learn p bad good) <> []) /\
  forall q, mfind q (samples (learn p bad good)) = match latest q (rev (pairs_of bad good)) with Some v => Some v | None => mfind q (samples p) end.
Proof.
  induction bad as [|[i o] bad IH]; intros [|[i' c] good] p L S; try discriminate; cbn [learn].
  - repeat split; auto; congruence.
  - injection L as L. set (p' := mkPred _ _ _ _ _). destruct (IH good p' L (mput_sorted o c _ S)) as (A & B & C & D & E & F & G).
    split; [exact A|]. split; [exact B|]. split; [exact C|]. split; [exact D|]. split; [discriminate|]. split.
    + intros _. destruct bad as [|b bad']; [|apply F; discriminate]. destruct (E eq_refl) as [E1 E2]. rewrite E1, E2. split; apply mput_nonempty.
    + intros q. rewrite G. unfold pairs_of. cbn [map combine rev snd]. unfold p'. cbn [samples]. rewrite mfind_put by exact S. clear.
      induction (rev (combine (map snd bad) (map snd good))) as [|[k v] r IH]; cbn [latest app]; [destruct (list_eq_dec Z.eq_dec q o); reflexivity|].
      destruct (list_eq_dec Z.eq_dec q k); [reflexivity|exact IH].
Qed.
Lemma latest_app q a b : latest q (a ++ b) = match latest q a with Some v => Some v | None => latest q b end.
Proof. induction a as [|[k v] r IH]; [reflexivity|]. cbn [latest app]. destruct (list_eq_dec Z.eq_dec q k); auto. Qed.

(** ** The invariant *)
Lemma sim_fold (m : list (vec * vec)) i : m <> [] -> fold_left (fun a c => fmax a (similarity i (snd c))) m (S754_zero false) = slit 1 10.
Proof.
  destruct m as [|x r]; [congruence|]. intros _. cbn [fold_left]. replace (fmax (S754_zero false) (similarity i (snd x))) with (slit 1 10) by (vm_compute; reflexivity).
  induction r as [|y r IH]; [reflexivity|]. cbn [fold_left]. replace (fmax (slit 1 10) (similarity i (snd y))) with (slit 1 10) by (vm_compute; reflexivity). exact IH.
Qed.
Lemma closest_first m o : closest m o = match m with [] => (S754_zero false, []) | x :: _ => (slit 1 10, fst x) end.
Proof.
  unfold closest. destruct m as [|x r]; [reflexivity|]. cbn [fold_left fst]. replace (fgt (similarity o (fst x)) (S754_zero false)) with true by (vm_compute; reflexivity). cbv iota. change (similarity o (fst x)) with (slit 1 10).
  induction r as [|y r IH]; [reflexivity|]. cbn [fold_left fst]. replace (fgt (similarity o (fst y)) (slit 1 10)) with false by (vm_compute; reflexivity). exact IH.
Qed.
Lemma no_partial (m : list (vec * vec)) o : existsb (fun s => partially o (fst s)) m = false.
Proof. induction m; [reflexivity|]. simpl. exact IHm. Qed.
Record PInv (p : pred) : Prop := { pi_sorted : msorted (samples p); pi_s : trained p = true <-> samples p <> []; pi_c : trained p = true <-> contexts p <> [] }.
Lemma suggest_pure p i o : PInv p -> snd (suggest p i o) = p.
Proof.
  intros H. unfold suggest. destruct (negb (trained p) || _) eqn:T; [reflexivity|]. apply orb_false_iff in T. destruct T as [T _]. apply negb_false_iff in T. destruct (mfind o (samples p)); [reflexivity|].
  rewrite closest_first. destruct (samples p) as [|[k v] r] eqn:E; [exfalso; apply (proj1 (pi_s p H) T); exact E|]. destruct (fgt _ _); [|reflexivity]. cbn [mfind fst]. rewrite lex_refl. reflexivity.
Qed.
Lemma train_eq p b g : train p b g = if accepted_b b g then (true, let q := learn p b g in mkPred true (detect_th q) (conf_th q) (samples q) (contexts q)) else (false, p).
Proof. unfold train, accepted_b. rewrite <- negb_involutive with (b := (Nat.eqb (length b) (length g) && _)%bool). rewrite negb_andb, negb_involutive. destruct (negb _ || _); reflexivity. Qed.
Lemma accepted_len b g : accepted_b b g = true -> length b = length g /\ b <> [].
Proof. unfold accepted_b. intros H. apply andb_prop in H. destruct H as [A B]. apply Nat.eqb_eq in A. apply negb_true_iff, Nat.eqb_neq in B. split; [exact A|]. intros ->. apply B. reflexivity. Qed.
Lemma prun_snoc ops o : prun (ops ++ [o]) = papply (prun ops) o.
Proof. unfold prun. rewrite fold_left_app. reflexivity. Qed.
Lemma prun_spec ops : PInv (prun ops) /\ (forall q, mfind q (samples (prun ops)) = known ops q) /\ (trained (prun ops) = true <-> taught ops <> []) /\
  detect_th (prun ops) = last_detection ops /\ conf_th (prun ops) = last_confidence ops.
Proof.
  induction ops as [|o ops IH] using rev_ind.
  - split; [constructor; cbn; [constructor|split; congruence|split; congruence]|]. split; [reflexivity|]. split; [cbn; split; congruence|]. split; reflexivity.
  - destruct IH as (I & F & T & D & C). rewrite prun_snoc. unfold known, taught, last_detection, last_confidence. rewrite !fold_left_app. cbn [fold_left].
    fold (taught ops). fold (last_detection ops). fold (last_confidence ops).
    destruct o as [b g|t|t|i x|i x]; cbn [papply].
    + rewrite train_eq. destruct (accepted_b b g) eqn:A; cbn [snd].
      * destruct (accepted_len b g A) as [L N]. destruct (learn_spec b g (prun ops) L (pi_sorted _ I)) as (S1 & S2 & S3 & S4 & S5 & S6 & S7). cbv zeta.
        split; [constructor; cbn [samples trained contexts]; [exact S1|split; [intros _; apply S6; exact N|reflexivity]|split; [intros _; apply S6; exact N|reflexivity]]|].
        cbn [samples trained detect_th conf_th]. split; [intros q; rewrite S7, latest_app, F; reflexivity|]. split; [|split; congruence].
        split; [|reflexivity]. intros _ E. apply app_eq_nil in E. destruct E as [E _]. destruct b as [|[b1 b2] b]; [congruence|]. destruct g as [|[g1 g2] g]; [discriminate|]. unfold pairs_of in E. cbn [map combine rev] in E. apply app_eq_nil in E. destruct E; discriminate.
      * split; [exact I|]. auto.
    + split; [destruct I; constructor; assumption|]. auto.
    + split; [destruct I; constructor; assumption|]. auto.
    + rewrite suggest_pure by exact I. split; [exact I|]. auto.
    + split; [exact I|]. auto.
Qed.
Lemma probability_spec ops i o : probability (prun ops) i o = match taught ops with [] => slit 5 10 | _ => match known ops o with Some _ => slit 9 10 | None => slit 1 10 end end.
Proof.
  destruct (prun_spec ops) as (I & F & T & _). unfold probability. rewrite F, no_partial. destruct (taught ops) as [|x r] eqn:E.
  - replace (trained (prun ops)) with false; [reflexivity|]. destruct (trained (prun ops)); [exfalso; apply (proj1 T eq_refl); reflexivity|reflexivity].
  - assert (Tr : trained (prun ops) = true) by (apply T; discriminate). rewrite Tr. cbn [negb]. destruct (known ops o); [reflexivity|]. apply sim_fold. apply (pi_c _ I). exact Tr.
Qed.
Lemma suggest_spec ops i o : fst (suggest (prun ops) i o) =
  match taught ops with
  | [] => None
  | _ => match known ops o with
         | Some c => if flt (slit 9 10) (last_detection ops) then None else Some c
         | None => if flt (slit 1 10) (last_detection ops) then None
                   else if fgt (slit 1 10) (last_confidence ops) then option_map snd (hd_error (samples (prun ops))) else None
         end
  end.
Proof.
  pose proof (probability_spec ops i o) as Pr. destruct (prun_spec ops) as (I & F & T & D & C). unfold suggest. rewrite Pr, F, D, C. destruct (taught ops) as [|x r] eqn:E.
  - replace (trained (prun ops)) with false; [reflexivity|]. destruct (trained (prun ops)); [exfalso; apply (proj1 T eq_refl); reflexivity|reflexivity].
  - assert (Tr : trained (prun ops) = true) by (apply T; discriminate). rewrite Tr. cbn [negb orb]. destruct (known ops o) as [c|]; [destruct (flt _ _); reflexivity|]. destruct (flt _ _); [reflexivity|].
    rewrite closest_first. destruct (samples (prun ops)) as [|[k v] m] eqn:S; [exfalso; apply (proj1 (pi_s _ I) Tr); exact S|]. destruct (fgt _ _); [|reflexivity]. cbn [mfind fst]. rewrite lex_refl. reflexivity.
Qed.
(* the first of the stored samples: the smallest taught output *)
Lemma first_sample ops k v m : samples (prun ops) = (k, v) :: m -> known ops k = Some v /\ forall q w, known ops q = Some w -> q = k \/ lex k q = Lt.
Proof.
  intros S. destruct (prun_spec ops) as (I & F & _). split; [rewrite <- F, S; cbn [mfind]; rewrite lex_refl; reflexivity|]. intros q w H. rewrite <- F, S in H. cbn [mfind] in H. destruct (lex q k) eqn:L.
  - left. apply lex_eq. exact L.
  - exfalso. pose proof (pi_sorted _ I) as So. rewrite S in So. unfold msorted in So. cbn [map fst] in So. apply StronglySorted_inv in So. destruct So as [_ So]. rewrite mfind_absent in H; [discriminate|]. intros x Hx. rewrite Forall_forall in So. exact (lex_trans _ _ _ L (So x Hx)).
  - right. rewrite lex_opp, L. reflexivity.
Qed.
Lemma train_result p b g : fst (train p b g) = accepted_b b g.
Proof. rewrite train_eq. destruct (accepted_b b g); reflexivity. Qed.
Lemma accepted_iff b g : accepted_b b g = true <-> accepted b g.
Proof. split; [apply accepted_len|]. intros [A B]. unfold accepted_b. rewrite A, Nat.eqb_refl. destruct b; [congruence|]. destruct g; [discriminate|]. reflexivity. Qed.
