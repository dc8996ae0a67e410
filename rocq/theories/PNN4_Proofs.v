(** The setters replace exactly what they are asked to; simulated upsets stay where they were drawn. *)
From Coq Require Import List NArith ZArith Bool Arith Lia SpecFloat.
Import ListNotations.
From Verif Require Import Outcome Words Arith Floats Bits_Model MBP_Model MBP_Spec PNN_Model PNN_Spec PNN_Proofs PNN2_Proofs PNN3_Proofs.
Local Open Scope nat_scope.
Local Open Scope outcome_scope.

(** ** one weight, one bias *)
Lemma params_setW s l i j c v m : params (with_mirror (with_w s (put3 (wts s) l i j (cell c v))) m) = mirror_w (params s) l i j v.
Proof.
  unfold params, mirror_w. cbn [wts bss with_w with_mirror]. unfold put3.
  rewrite (map_upd _ _ _ _ (fun w => upd w i (fun r => upd r j (fun _ => v)))).
  - rewrite combine_upd_l. reflexivity.
  - intros w. rewrite (map_upd _ _ _ _ (fun r => upd r j (fun _ => v))); [reflexivity|].
    intros r. rewrite (map_upd _ _ _ _ (fun _ => v)); [reflexivity|]. reflexivity.
Qed.
Lemma params_setB s l j c v m : params (with_mirror (with_b s (put2 (bss s) l j (cell c v))) m) = mirror_b (params s) l j v.
Proof.
  unfold params, mirror_b. cbn [wts bss with_b with_mirror]. unfold put2.
  rewrite (map_upd _ _ _ _ (fun r => upd r j (fun _ => v))).
  - rewrite combine_upd_r. reflexivity.
  - intros r. rewrite (map_upd _ _ _ _ (fun _ => v)); [reflexivity|]. reflexivity.
Qed.
Lemma shape_upd ps l f : (forall p, (map (@length N) (fst (f p)), length (snd (f p))) = (map (@length N) (fst p), length (snd p))) -> shape (upd ps l f) = shape ps.
Proof.
  intros H. unfold shape. rewrite (map_upd _ _ _ _ (fun q => q)); [|intros p; apply H]. apply upd_same; reflexivity.
Qed.
Lemma lengths_upd (w : list (list N)) i g : (forall r, length (g r) = length r) -> map (@length N) (upd w i g) = map (@length N) w.
Proof. intros H. rewrite (map_upd _ _ _ _ (fun q => q)); [|apply H]. apply upd_same; reflexivity. Qed.
Lemma shape_mirror_w ps l i j v : shape (mirror_w ps l i j v) = shape ps.
Proof. apply shape_upd; intros p; cbn [fst snd]. rewrite lengths_upd; [reflexivity|]. intros r; apply upd_length. Qed.
Lemma shape_mirror_b ps l j v : shape (mirror_b ps l j v) = shape ps.
Proof. apply shape_upd; intros p; cbn [fst snd]. rewrite upd_length; reflexivity. Qed.
(** which indices exist depends on the shape only *)
Definition has3 (sh : list (list nat * nat)) l i j : Prop := exists a n, nth_error sh l = Some a /\ nth_error (fst a) i = Some n /\ j < n.
Definition has2 (sh : list (list nat * nat)) l j : Prop := exists a, nth_error sh l = Some a /\ j < snd a.
Lemma get3_has ps l i j : (exists v, get3 (map fst ps) l i j = Some v) <-> has3 (shape ps) l i j.
Proof.
  unfold get3, has3, shape. rewrite !nth_error_map. destruct (nth_error ps l) as [p|]; cbn [option_map].
  - split.
    + intros [v H]. destruct (nth_error (fst p) i) as [r|] eqn:E; [|discriminate]. eexists _, (length r). split; [reflexivity|]. cbn [fst]. rewrite nth_error_map, E. split; [reflexivity|].
      apply nth_error_Some; congruence.
    + intros (a & n & H1 & H2 & H3). injection H1 as <-. cbn [fst] in H2. rewrite nth_error_map in H2. destruct (nth_error (fst p) i) as [r|]; [|discriminate].
      injection H2 as <-. apply nth_error_ex, H3.
  - split; [intros [v H]; discriminate | intros (a & n & H & _); discriminate].
Qed.
Lemma get2_has ps l j : (exists v, get2 (map snd ps) l j = Some v) <-> has2 (shape ps) l j.
Proof.
  unfold get2, has2, shape. rewrite !nth_error_map. destruct (nth_error ps l) as [p|]; cbn [option_map].
  - split.
    + intros [v H]. eexists; split; [reflexivity|]. cbn [snd]. apply nth_error_Some; congruence.
    + intros (a & H1 & H3). injection H1 as <-. apply nth_error_ex, H3.
  - split; [intros [v H]; discriminate | intros (a & H & _); discriminate].
Qed.
Lemma map_fst_params s : Inv s -> map fst (params s) = map (map (map value_)) (wts s).
Proof.
  intros HI. unfold params. assert (E : length (wts s) = length (bss s)) by (rewrite (inv_w s HI), (inv_b s HI); reflexivity).
  revert E; generalize (wts s) (bss s); intros w; induction w as [|a w IH]; intros [|b bs] E; simpl in *; try discriminate; auto. rewrite IH; auto.
Qed.
Lemma map_snd_params s : Inv s -> map snd (params s) = map (map value_) (bss s).
Proof.
  intros HI. unfold params. assert (E : length (wts s) = length (bss s)) by (rewrite (inv_w s HI), (inv_b s HI); reflexivity).
  revert E; generalize (wts s) (bss s); intros w; induction w as [|a w IH]; intros [|b bs] E; simpl in *; try discriminate; auto. rewrite IH; auto.
Qed.
Lemma get3_map {A B} (f : A -> B) w l i j : get3 (map (map (map f)) w) l i j = option_map f (get3 w l i j).
Proof.
  unfold get3. rewrite nth_error_map. destruct (nth_error w l) as [m|]; [|reflexivity]. cbn [option_map]. rewrite nth_error_map.
  destruct (nth_error m i) as [r|]; [|reflexivity]. cbn [option_map]. apply nth_error_map.
Qed.
Lemma get2_map {A B} (f : A -> B) w l j : get2 (map (map f) w) l j = option_map f (get2 w l j).
Proof. unfold get2. rewrite nth_error_map. destruct (nth_error w l) as [m|]; [|reflexivity]. cbn [option_map]. apply nth_error_map. Qed.
Lemma has3_params s l i j : Inv s -> l < length (wts s) -> i < nth l (sizes s) O -> j < nth (S l) (sizes s) O -> has3 (shape (params s)) l i j.
Proof.
  intros HI Hl Hi Hj. apply get3_has. rewrite (map_fst_params s HI), get3_map. destruct (get3_ex s l i j HI Hl Hi Hj) as [c E]; rewrite E. simpl; eauto.
Qed.
Lemma has2_params s l j : Inv s -> l < length (bss s) -> j < nth (S l) (sizes s) O -> has2 (shape (params s)) l j.
Proof.
  intros HI Hl Hj. apply get2_has. rewrite (map_snd_params s HI), get2_map. destruct (get2_ex s l j HI Hl Hj) as [c E]; rewrite E. simpl; eauto.
Qed.
(** [edited s s' T]: the same edit was made to the parameters and to the layer copies, and nothing else *)
Definition edited (s s' : pnn) (T : list (list (list N) * list N) -> list (list (list N) * list N)) : Prop :=
  params s' = T (params s) /\ mirror s' = T (mirror s) /\ same_rest s s' /\ length (wts s') = length (wts s) /\ Inv s' /\ mirror_fits s'.
Lemma same_rest_refl s : same_rest s s. Proof. repeat split. Qed.
Lemma same_rest_trans a b c : same_rest a b -> same_rest b c -> same_rest a c.
Proof. intros (H1 & H2 & H3 & H4 & H5) (G1 & G2 & G3 & G4 & G5); repeat split; congruence. Qed.
Lemma edited_trans a b c T U : edited a b T -> edited b c U -> edited a c (fun p => U (T p)).
Proof.
  intros (H1 & H2 & H3 & H4 & H5 & H6) (G1 & G2 & G3 & G4 & G5 & G6). pose proof (same_rest_trans _ _ _ H3 G3).
  unfold edited. rewrite G1, G2, H1, H2. intuition congruence.
Qed.
Lemma setWeight_edit s l i j v : Inv s -> mirror_fits s -> l < length (wts s) -> i < nth l (sizes s) O -> j < nth (S l) (sizes s) O ->
  exists s', setWeight s l i j v = Ret s' /\ edited s s' (fun ps => mirror_w ps l i j v).
Proof.
  intros HI HM Hl Hi Hj. destruct (get3_ex s l i j HI Hl Hi Hj) as [c E].
  pose proof (has3_params s l i j HI Hl Hi Hj) as H. rewrite <- HM in H. apply get3_has in H. destruct H as [w Ew].
  assert (ES : exists s', setWeight s l i j v = Ret s') by (unfold setWeight; rewrite E, Ew; eauto). destruct ES as [s' ES]. exists s'; split; [exact ES|].
  destruct (setWeight_inv s l i j v s' HI ES) as (c' & E' & Es').
  assert (I' : Inv s') by (exact (Inv_setWeight _ _ _ _ _ _ HI ES)).
  assert (P : params s' = mirror_w (params s) l i j v) by (rewrite Es'; apply params_setW).
  assert (M : mirror s' = mirror_w (mirror s) l i j v) by (rewrite Es'; reflexivity).
  split; [exact P|]. split; [exact M|]. split; [rewrite Es'; repeat split|]. split; [rewrite Es'; simpl; unfold put3; apply upd_length|]. split; [exact I'|].
  unfold mirror_fits. rewrite P, M, !shape_mirror_w. exact HM.
Qed.
Lemma setBias_edit s l j v : Inv s -> mirror_fits s -> l < length (bss s) -> j < nth (S l) (sizes s) O ->
  exists s', setBias s l j v = Ret s' /\ edited s s' (fun ps => mirror_b ps l j v).
Proof.
  intros HI HM Hl Hj. destruct (get2_ex s l j HI Hl Hj) as [c E].
  pose proof (has2_params s l j HI Hl Hj) as H. rewrite <- HM in H. apply get2_has in H. destruct H as [w Ew].
  assert (ES : exists s', setBias s l j v = Ret s') by (unfold setBias; rewrite E, Ew; eauto). destruct ES as [s' ES]. exists s'; split; [exact ES|].
  destruct (setBias_inv s l j v s' HI ES) as (c' & E' & Es').
  assert (I' : Inv s') by (exact (Inv_setBias _ _ _ _ _ HI ES)).
  assert (P : params s' = mirror_b (params s) l j v) by (rewrite Es'; apply params_setB).
  assert (M : mirror s' = mirror_b (mirror s) l j v) by (rewrite Es'; reflexivity).
  split; [exact P|]. split; [exact M|]. split; [rewrite Es'; repeat split|]. split; [rewrite Es'; reflexivity|]. split; [exact I'|].
  unfold mirror_fits. rewrite P, M, !shape_mirror_b. exact HM.
Qed.

(** ** rows *)
Fixpoint ow (r : list N) (j : nat) (row : list N) : list N := match row with [] => r | v :: row => ow (upd r j (fun _ => v)) (S j) row end.
Lemma firstn_upd {A} (l : list A) i f : firstn i (upd l i f) = firstn i l.
Proof. revert i; induction l as [|a l IH]; intros [|i]; simpl; auto. rewrite IH; reflexivity. Qed.
Lemma firstn_S_upd {A} (l : list A) i f x : nth_error l i = Some x -> firstn (S i) (upd l i f) = firstn i l ++ [f x].
Proof. revert i; induction l as [|a l IH]; intros [|i] H; simpl in *; try discriminate; [congruence|]. f_equal. exact (IH i H). Qed.
Lemma skipn_S_upd {A} (l : list A) i f : skipn (S i) (upd l i f) = skipn (S i) l.
Proof. revert i; induction l as [|a l IH]; intros [|i]; simpl; auto. exact (IH i). Qed.
Lemma skipn_skipn {A} (l : list A) x y : skipn x (skipn y l) = skipn (x + y) l.
Proof. revert l; induction y as [|y IH]; intros l; [rewrite Nat.add_0_r; reflexivity|]. rewrite Nat.add_succ_r. destruct l as [|a l]; [destruct x; reflexivity|]. exact (IH l). Qed.
Lemma ow_eq row r j : j + length row <= length r -> ow r j row = firstn j r ++ row ++ skipn (j + length row) r.
Proof.
  revert r j; induction row as [|v row IH]; intros r j H; cbn [ow length app].
  - rewrite Nat.add_0_r, firstn_skipn; reflexivity.
  - cbn [length] in H. destruct (nth_error_ex r j) as [x Ex]; [lia|]. rewrite IH by (rewrite upd_length; lia).
    rewrite (firstn_S_upd r j _ x Ex), <- app_assoc. cbn [app]. f_equal. f_equal. f_equal.
    replace (S j + length row) with (length row + S j) by lia. replace (j + S (length row)) with (length row + S j) by lia.
    rewrite <- !skipn_skipn, skipn_S_upd. reflexivity.
Qed.
Lemma ow_full row r : length row = length r -> ow r 0 row = row.
Proof. intros H. rewrite ow_eq by lia. simpl. rewrite skipn_all2 by lia. apply app_nil_r. Qed.
Definition edit_row l i j row (ps : list (list (list N) * list N)) := upd ps l (fun p => (upd (fst p) i (fun r => ow r j row), snd p)).
Definition edit_bias l j row (ps : list (list (list N) * list N)) := upd ps l (fun p => (fst p, ow (snd p) j row)).
Lemma edit_row_cons l i j v row ps : edit_row l i (S j) row (mirror_w ps l i j v) = edit_row l i j (v :: row) ps.
Proof. unfold edit_row, mirror_w. rewrite upd_upd. apply upd_ext; intros [w b] _. cbn [fst snd]. rewrite upd_upd. reflexivity. Qed.
Lemma edit_bias_cons l j v row ps : edit_bias l (S j) row (mirror_b ps l j v) = edit_bias l j (v :: row) ps.
Proof. unfold edit_bias, mirror_b. rewrite upd_upd. apply upd_ext; intros [w b] _. reflexivity. Qed.
Lemma edited_ext s s' T U : (forall p, T p = U p) -> edited s s' T -> edited s s' U.
Proof. intros H (H1 & H2 & H3). unfold edited. rewrite <- !H. auto. Qed.
Lemma set_row_edit row s l i j : Inv s -> mirror_fits s -> l < length (wts s) -> i < nth l (sizes s) O -> j + length row <= nth (S l) (sizes s) O ->
  exists s', set_row s l i j row = Ret s' /\ edited s s' (edit_row l i j row).
Proof.
  revert s j; induction row as [|v row IH]; intros s j HI HM Hl Hi Hj; cbn [set_row length] in *.
  - exists s; split; [reflexivity|]. assert (E : forall ps, edit_row l i j [] ps = ps).
    { intros ps; unfold edit_row; apply upd_same; intros [w b] _. cbn [fst snd ow]. rewrite upd_same; auto. }
    unfold edited; rewrite !E; auto 10 using same_rest_refl.
  - destruct (setWeight_edit s l i j v HI HM Hl Hi ltac:(lia)) as (s1 & E1 & D1). rewrite E1. cbn [obind].
    destruct D1 as (P1 & M1 & R1 & L1 & I1 & F1). pose proof R1 as (R11 & _).
    destruct (IH s1 (S j) I1 F1) as (s2 & E2 & D2); [lia | rewrite R11; lia | rewrite R11; lia|]. exists s2; split; [exact E2|].
    apply (edited_ext _ _ (fun p => edit_row l i (S j) row (mirror_w p l i j v))); [intros; apply edit_row_cons|].
    eapply (edited_trans s s1 s2 (fun ps => mirror_w ps l i j v)); [|exact D2]. unfold edited; auto 10.
Qed.
Lemma set_biases_edit row s l j : Inv s -> mirror_fits s -> l < length (bss s) -> j + length row <= nth (S l) (sizes s) O ->
  exists s', set_biases s l j row = Ret s' /\ edited s s' (edit_bias l j row).
Proof.
  revert s j; induction row as [|v row IH]; intros s j HI HM Hl Hj; cbn [set_biases length] in *.
  - exists s; split; [reflexivity|]. assert (E : forall ps, edit_bias l j [] ps = ps).
    { intros ps; unfold edit_bias; apply upd_same; intros [w b] _. reflexivity. }
    unfold edited; rewrite !E; auto 10 using same_rest_refl.
  - destruct (setBias_edit s l j v HI HM Hl ltac:(lia)) as (s1 & E1 & D1). rewrite E1. cbn [obind].
    destruct D1 as (P1 & M1 & R1 & L1 & I1 & F1). pose proof R1 as (R11 & _).
    destruct (IH s1 (S j) I1 F1) as (s2 & E2 & D2); [| rewrite R11; lia|]. { rewrite (inv_b s1 I1), <- (inv_w s1 I1), L1, (inv_w s HI), <- (inv_b s HI); exact Hl. }
    exists s2; split; [exact E2|].
    apply (edited_ext _ _ (fun p => edit_bias l (S j) row (mirror_b p l j v))); [intros; apply edit_bias_cons|].
    eapply (edited_trans s s1 s2 (fun ps => mirror_b ps l j v)); [|exact D2]. unfold edited; auto 10.
Qed.
(** ** matrices: rows are set until one has the wrong length *)
Fixpoint owr (w : list (list N)) (i : nat) (m : list (list N)) : list (list N) :=
  match m with [] => w | row :: m => owr (upd w i (fun r => ow r 0 row)) (S i) m end.
Definition edit_rows l i m (ps : list (list (list N) * list N)) := upd ps l (fun p => (owr (fst p) i m, snd p)).
Lemma edit_rows_cons l i row m ps : edit_rows l (S i) m (edit_row l i 0 row ps) = edit_rows l i (row :: m) ps.
Proof. unfold edit_rows, edit_row. rewrite upd_upd. apply upd_ext; intros [w b] _. reflexivity. Qed.
Lemma edit_rows_nil l i ps : edit_rows l i [] ps = ps.
Proof. unfold edit_rows; apply upd_same; intros [w b] _. reflexivity. Qed.
(** the leading rows of length n *)
Fixpoint lead (n : nat) (m : list (list N)) : nat := match m with [] => O | r :: m => if Nat.eqb (length r) n then S (lead n m) else O end.
Lemma set_rows_edit m s l i : Inv s -> mirror_fits s -> l < length (wts s) -> i + length m <= nth l (sizes s) O ->
  let n := nth (S l) (sizes s) O in
  exists s', set_rows s l i n m = Ret (s', if Nat.eqb (lead n m) (length m) then None else Some E_invalid_argument) /\
             edited s s' (edit_rows l i (firstn (lead n m) m)).
Proof.
  revert s i; induction m as [|row m IH]; intros s i HI HM Hl Hi n; cbn [set_rows length lead firstn] in *.
  - exists s; split; [reflexivity|]. unfold edited; rewrite !edit_rows_nil; auto 10 using same_rest_refl.
  - destruct (Nat.eqb_spec (length row) n) as [En|En]; cbn [negb].
    + destruct (set_row_edit row s l i 0 HI HM Hl ltac:(lia)) as (s1 & E1 & D1); [unfold n in En; lia|]. rewrite E1. cbn [obind].
      pose proof D1 as (P1 & M1 & R1 & L1 & I1 & F1). pose proof R1 as (R11 & _).
      destruct (IH s1 (S i) I1 F1) as (s2 & E2 & D2); [lia | rewrite R11; lia |]. rewrite R11 in E2, D2. fold n in E2, D2.
      exists s2. split; [exact E2|]. cbn [firstn].
      apply (edited_ext _ _ (fun p => edit_rows l (S i) (firstn (lead n m) m) (edit_row l i 0 row p))); [intros; apply edit_rows_cons|].
      exact (edited_trans _ _ _ _ _ D1 D2).
    + exists s; split; [reflexivity|]. cbn [firstn]. unfold edited; rewrite !edit_rows_nil; auto 10 using same_rest_refl.
Qed.
Lemma owr_eq n m w i : Forall (fun r => length r = n) m -> Forall (fun r => length r = n) w -> i + length m <= length w ->
  owr w i m = firstn i w ++ m ++ skipn (i + length m) w.
Proof.
  intros Hm; revert w i; induction Hm as [|row m Hr Hm IH]; intros w i Hw H; cbn [owr length app] in *.
  - rewrite Nat.add_0_r, firstn_skipn; reflexivity.
  - destruct (nth_error_ex w i) as [x Ex]; [lia|].
    assert (Hx : length x = n) by (rewrite Forall_forall in Hw; apply Hw; exact (nth_error_In _ _ Ex)).
    assert (U : upd w i (fun r => ow r 0 row) = upd w i (fun _ => row)).
    { apply upd_ext; intros y Ey. apply ow_full. congruence. }
    rewrite U, IH.
    + rewrite (firstn_S_upd w i _ x Ex), <- app_assoc. cbn [app]. f_equal. f_equal. f_equal.
      replace (S i + length m) with (length m + S i) by lia. replace (i + S (length m)) with (length m + S i) by lia.
      rewrite <- !skipn_skipn, skipn_S_upd. reflexivity.
    + apply Forall_forall; intros y Hy. apply In_nth_error in Hy; destruct Hy as [q Hy]. rewrite nth_error_upd in Hy. rewrite Forall_forall in Hw.
      destruct (Nat.eqb q i); [|apply Hw; exact (nth_error_In _ _ Hy)]. destruct (nth_error w q); [|discriminate]. simpl in Hy; congruence.
    + rewrite upd_length; lia.
Qed.
Lemma lead_forall n m : Forall (fun r => length r = n) (firstn (lead n m) m).
Proof. induction m as [|r m IH]; simpl; auto. destruct (Nat.eqb_spec (length r) n); simpl; auto. Qed.
Lemma lead_le n m : lead n m <= length m.
Proof. induction m as [|r m IH]; simpl; auto. destruct (Nat.eqb _ _); lia. Qed.
Lemma lead_all n m : Forall (fun r => length r = n) m -> lead n m = length m.
Proof. induction 1 as [|r m Hr Hm IH]; simpl; auto. rewrite Hr, Nat.eqb_refl, IH; reflexivity. Qed.
Lemma lead_row n m : lead n m < length m -> exists r, nth_error m (lead n m) = Some r /\ length r <> n.
Proof.
  induction m as [|r m IH]; simpl; [lia|]. destruct (Nat.eqb_spec (length r) n) as [E|E]; simpl; [|eauto].
  intros H. apply IH; lia.
Qed.
Lemma shape_layer s l ps : Inv s -> l < length (wts s) -> shape ps = shape (params s) ->
  exists p, nth_error ps l = Some p /\ length (fst p) = nth l (sizes s) O /\ Forall (fun r => length r = nth (S l) (sizes s) O) (fst p) /\ length (snd p) = nth (S l) (sizes s) O.
Proof.
  intros HI Hl HS.
  assert (Hl' : l < length (bss s)) by (rewrite (inv_b s HI), <- (inv_w s HI); exact Hl).
  destruct (nth_error_ex _ _ Hl) as [m Em]. destruct (nth_error_ex _ _ Hl') as [b Eb].
  destruct (inv_wl s HI l m Em) as [W1 W2]. destruct (inv_bl s HI l b Eb) as [B1 _].
  pose proof (f_equal (fun z => nth_error z l) HS) as H. cbv beta in H. unfold shape in H. rewrite !nth_error_map, (nth_params s l m b Em Eb) in H. cbn [option_map fst snd] in H.
  destruct (nth_error ps l) as [p|]; [|discriminate]. cbn [option_map] in H. injection H as H1 H2. exists p. split; [reflexivity|].
  split; [|split].
  - rewrite <- (map_length (@length N)), H1, !map_length; exact W1.
  - apply Forall_forall; intros r Hr. apply (in_map (@length N)) in Hr. rewrite H1 in Hr. apply in_map_iff in Hr; destruct Hr as (r' & <- & Hr').
    apply in_map_iff in Hr'; destruct Hr' as (r0 & <- & Hr0). rewrite map_length. rewrite Forall_forall in W2. apply (W2 r0 Hr0).
  - rewrite H2, map_length; exact B1.
Qed.
Lemma setLayerWeights_edit s l m : Inv s -> mirror_fits s -> l < length (wts s) -> length m = nth l (sizes s) O ->
  let k := lead (nth (S l) (sizes s) O) m in
  exists s', setLayerWeights s l m = Ret (s', if Nat.eqb k (length m) then None else Some E_invalid_argument) /\
             edited s s' (fun ps => upd ps l (fun p => (firstn k m ++ skipn k (fst p), snd p))).
Proof.
  intros HI HM Hl Hm k. destruct (set_rows_edit m s l 0 HI HM Hl ltac:(lia)) as (s' & E & D). fold k in E, D. exists s'. split.
  - unfold setLayerWeights. destruct (Nat.leb_spec (length (wts s)) l); [lia|]. rewrite Hm, Nat.eqb_refl. cbn [negb]. rewrite <- Hm. exact E.
  - destruct D as (P & M & R & L & I & F). 
    assert (G : forall ps, shape ps = shape (params s) -> edit_rows l 0 (firstn k m) ps = upd ps l (fun p => (firstn k m ++ skipn k (fst p), snd p))).
    { intros ps HS. unfold edit_rows. apply upd_ext; intros p Ep. destruct (shape_layer s l ps HI Hl HS) as (p' & Ep' & S1 & S2 & S3).
      rewrite Ep in Ep'; injection Ep' as <-. f_equal. pose proof (lead_le (nth (S l) (sizes s) O) m) as HK. fold k in HK.
      rewrite (owr_eq (nth (S l) (sizes s) O) (firstn k m) (fst p) 0 (lead_forall _ m) S2) by (rewrite firstn_length; lia). cbn [firstn app Nat.add].
      rewrite firstn_length, Nat.min_l by exact HK. reflexivity. }
    split; [rewrite P; apply G; reflexivity|]. split; [rewrite M; apply G; exact HM|]. auto.
Qed.
Lemma setLayerBiases_edit s l b : Inv s -> mirror_fits s -> l < length (bss s) -> length b = nth (S l) (sizes s) O ->
  exists s', setLayerBiases s l b = Ret (s', None) /\ edited s s' (fun ps => upd ps l (fun p => (fst p, b))).
Proof.
  intros HI HM Hl Hb. destruct (set_biases_edit b s l 0 HI HM Hl ltac:(lia)) as (s' & E & D). exists s'. split.
  - unfold setLayerBiases. destruct (Nat.leb_spec (length (bss s)) l); [lia|]. rewrite Hb, Nat.eqb_refl. cbn [negb]. rewrite E. reflexivity.
  - destruct D as (P & M & R & L & I & F).
    assert (Hl' : l < length (wts s)) by (rewrite (inv_w s HI), <- (inv_b s HI); exact Hl).
    assert (G : forall ps, shape ps = shape (params s) -> edit_bias l 0 b ps = upd ps l (fun p => (fst p, b))).
    { intros ps HS. unfold edit_bias. apply upd_ext; intros p Ep. destruct (shape_layer s l ps HI Hl' HS) as (p' & Ep' & S1 & S2 & S3).
      rewrite Ep in Ep'; injection Ep' as <-. f_equal. apply ow_full; congruence. }
    split; [rewrite P; apply G; reflexivity|]. split; [rewrite M; apply G; exact HM|]. auto.
Qed.
