(** Proofs about the radiation-protection simulations: strikes, majority vote, scrubbing. *)
From Coq Require Import List NArith ZArith Bool Arith Lia FinFun.
Import ListNotations.
From Verif Require Import Outcome Words Edac_Model Edac_Spec.

(** ** set_at and flip_at *)
Lemma set_at_length l : forall i x, length (set_at l i x) = length l.
Proof. induction l as [|h r IH]; intros [|i] x; simpl; auto. Qed.
Lemma set_at_nth l : forall i x j, (i < length l)%nat -> nth j (set_at l i x) 0%N = if (j =? i)%nat then x else nth j l 0%N.
Proof.
  induction l as [|h r IH]; intros [|i] x [|j] H; simpl in *; try lia; auto. apply IH. lia.
Qed.
Lemma set_at_bytes l : forall i x, bytes l -> (x < 256)%N -> bytes (set_at l i x).
Proof.
  unfold bytes. induction l as [|h r IH]; intros [|i] x H Hx; simpl; auto; inversion H; subst; constructor; auto.
Qed.
Lemma nth_byte l j : bytes l -> (nth j l 0 < 256)%N.
Proof.
  intros H. destruct (Nat.lt_ge_cases j (length l)) as [L|L].
  - unfold bytes in H. rewrite Forall_forall in H. apply H. apply nth_In. exact L.
  - rewrite nth_overflow by exact L. reflexivity.
Qed.
Lemma shift1_bit b j : N.testbit (N.shiftl 1 b) j = (j =? b)%N.
Proof.
  rewrite N.shiftl_1_l. destruct (N.eqb_spec j b) as [->|E]; [apply N.pow2_bits_true|apply N.pow2_bits_false; auto].
Qed.
Lemma cell_eqb_eq p q : cell_eqb p q = true <-> p = q.
Proof.
  unfold cell_eqb. destruct p as [a b], q as [c d]; simpl. rewrite andb_true_iff, !Nat.eqb_eq. split; [intros [-> ->]; auto|intros E; inversion E; auto].
Qed.
Lemma flip_at_length l i b : length (flip_at l i b) = length l.
Proof. apply set_at_length. Qed.
Lemma flip_at_bytes l i b : bytes l -> bytes (flip_at l i b).
Proof. intros H. apply set_at_bytes; [exact H|]. apply wrap_lt. Qed.
Lemma flip_at_bit l c p : bytes l -> (fst c < length l)%nat -> (snd c < 8)%nat ->
  bit_at (flip_at l (N.of_nat (fst c)) (N.of_nat (snd c))) p = xorb (bit_at l p) (cell_eqb p c).
Proof.
  intros Hb Hc Hs. unfold bit_at, flip_at. rewrite Nat2N.id, set_at_nth by exact Hc.
  unfold cell_eqb. destruct (Nat.eqb_spec (fst p) (fst c)) as [E|E]; cbn [andb]; [|now rewrite xorb_false_r].
  rewrite E, wrap_testbit, N.lxor_spec, shift1_bit.
  assert (Q : (N.of_nat (snd p) =? N.of_nat (snd c))%N = (snd p =? snd c)%nat).
  { destruct (Nat.eqb_spec (snd p) (snd c)) as [->|D]; [apply N.eqb_refl|]. apply N.eqb_neq. lia. }
  rewrite Q. destruct (N.ltb_spec (N.of_nat (snd p)) 8) as [L|L]; simpl; [reflexivity|].
  rewrite (testbit_above 8) by (try exact L; apply (nth_byte l (fst c) Hb)).
  destruct (Nat.eqb_spec (snd p) (snd c)); [lia|reflexivity].
Qed.

(** ** a list of strikes *)
Definition strikes_on (l : list cell) (m : list N) : list N :=
  fold_left (fun m c => flip_at m (N.of_nat (fst c)) (N.of_nat (snd c))) l m.
Definition in_range (n : nat) (c : cell) : Prop := (fst c < n)%nat /\ (snd c < 8)%nat.
Lemma inverted_cons c l p : inverted (c :: l) p = xorb (cell_eqb p c) (inverted l p).
Proof.
  unfold inverted, times. simpl. destruct (cell_eqb p c); simpl length.
  - rewrite Nat.odd_succ, <- Nat.negb_odd. destruct (Nat.odd _); reflexivity.
  - destruct (Nat.odd _); reflexivity.
Qed.
Lemma inverted_app a b p : inverted (a ++ b) p = xorb (inverted a p) (inverted b p).
Proof. induction a as [|c a IH]; [change (inverted b p = xorb false (inverted b p)); now rewrite xorb_false_l|]. simpl app. rewrite !inverted_cons, IH. now rewrite xorb_assoc. Qed.
Lemma strikes_on_length l : forall m, length (strikes_on l m) = length m.
Proof. induction l as [|c l IH]; intros m; [reflexivity|]. simpl. rewrite IH. apply flip_at_length. Qed.
Lemma strikes_on_bytes l : forall m, bytes m -> bytes (strikes_on l m).
Proof. induction l as [|c l IH]; intros m H; [exact H|]. simpl. apply IH. apply flip_at_bytes. exact H. Qed.
Lemma strikes_on_bit l : forall m p, bytes m -> Forall (in_range (length m)) l -> bit_at (strikes_on l m) p = xorb (bit_at m p) (inverted l p).
Proof.
  induction l as [|c l IH]; intros m p Hb Hl.
  - simpl. unfold inverted. simpl. now rewrite xorb_false_r.
  - inversion Hl as [|? ? [H1 H2] Hr]; subst. simpl.
    rewrite IH; [|apply flip_at_bytes; exact Hb|rewrite flip_at_length; exact Hr].
    rewrite flip_at_bit by assumption. rewrite inverted_cons, xorb_assoc. reflexivity.
Qed.

(** ** counting *)
Lemma count_app {A} (P : A -> bool) a b : count P (a ++ b) = (count P a + count P b)%N.
Proof. unfold count. rewrite filter_app, app_length. lia. Qed.
Lemma count_cons {A} (P : A -> bool) x a : count P (x :: a) = ((if P x then 1 else 0) + count P a)%N.
Proof. unfold count; cbn [filter]; destruct (P x); cbn [length]; lia. Qed.
Lemma count_map {A B} (P : B -> bool) (f : A -> B) l : count P (map f l) = count (fun x => P (f x)) l.
Proof. induction l as [|x l IH]; [reflexivity|]. simpl map. rewrite !count_cons, IH. reflexivity. Qed.
Lemma count_ext {A} (P Q : A -> bool) l : (forall x, In x l -> P x = Q x) -> count P l = count Q l.
Proof.
  induction l as [|x l IH]; intros H; [reflexivity|]. rewrite !count_cons, IH, (H x (or_introl eq_refl)); [reflexivity|].
  intros y Hy. apply H. right. exact Hy.
Qed.
Lemma count_le {A} (P : A -> bool) l : (count P l <= N.of_nat (length l))%N.
Proof. induction l as [|x l IH]; [reflexivity|]. rewrite count_cons. cbn [length]. destruct (P x); lia. Qed.
Lemma count_zero {A} (P : A -> bool) l : count P l = 0%N <-> (forall x, In x l -> P x = false).
Proof.
  induction l as [|x l IH]; [split; [intros _ y []|reflexivity]|]. rewrite count_cons. split.
  - intros H y [<-|Hy]; [destruct (P x); [lia|reflexivity]|]. apply IH; [|exact Hy]. destruct (P x); lia.
  - intros H. rewrite (H x (or_introl eq_refl)). rewrite (proj2 IH); [reflexivity|]. intros y Hy. apply H. right. exact Hy.
Qed.
Lemma count_split {A} (P Q : A -> bool) l : (count P l = count (fun x => P x && Q x) l + count (fun x => P x && negb (Q x)) l)%N.
Proof. induction l as [|x l IH]; [reflexivity|]. rewrite !count_cons, IH. destruct (P x), (Q x); cbn [andb negb]; lia. Qed.
Definition down (p : cell) : cell := (S (fst p), snd p).
Lemma cells_S w n : cells w (S n) = map (pair 0%nat) (seq 0 w) ++ map down (cells w n).
Proof.
  unfold cells. cbn [seq flat_map]. f_equal. rewrite <- seq_shift. generalize (seq 0 n) as l.
  induction l as [|i l IH]; [reflexivity|]. cbn [map flat_map]. rewrite map_app, IH. f_equal.
  rewrite map_map. reflexivity.
Qed.
Lemma cells_in w n p : In p (cells w n) <-> (fst p < n)%nat /\ (snd p < w)%nat.
Proof.
  unfold cells. rewrite in_flat_map. split.
  - intros (i & Hi & Hp). rewrite in_map_iff in Hp. destruct Hp as (b & <- & Hb). rewrite in_seq in Hi, Hb. simpl. lia.
  - intros [A B]. exists (fst p). split; [rewrite in_seq; lia|]. rewrite in_map_iff. exists (snd p). split; [now destruct p|rewrite in_seq; lia].
Qed.
Lemma cells_length w n : length (cells w n) = (n * w)%nat.
Proof. induction n as [|n IH]; [reflexivity|]. rewrite cells_S, app_length, !map_length, seq_length, IH. lia. Qed.
Lemma cells_nodup w n : NoDup (cells w n).
Proof.
  induction n as [|n IH]; [constructor|]. rewrite cells_S.
  assert (G : forall (a b : list cell), NoDup a -> NoDup b -> (forall x, In x a -> ~ In x b) -> NoDup (a ++ b)).
  { induction a as [|x a IHa]; intros b Ha Hb D; [exact Hb|]. inversion Ha; subst. simpl. constructor.
    - rewrite in_app_iff. intros [E|E]; [contradiction|]. exact (D x (or_introl eq_refl) E).
    - apply IHa; auto. intros y Hy. apply D. right. exact Hy. }
  apply G.
  - apply Injective_map_NoDup; [intros a b E; inversion E; auto|apply seq_NoDup].
  - apply Injective_map_NoDup; [intros [a b] [c d] E; unfold down in E; simpl in E; inversion E; auto|exact IH].
  - intros x Hx Hy. rewrite in_map_iff in Hx, Hy. destruct Hx as (b & <- & _), Hy as (q & E & _). discriminate E.
Qed.
(** the number of inverted cells is at most the number of strikes *)
Lemma inverted_in l p : inverted l p = true -> In p l.
Proof.
  induction l as [|c l IH]; [discriminate|]. rewrite inverted_cons. destruct (cell_eqb p c) eqn:E.
  - intros _. left. symmetry. apply cell_eqb_eq. exact E.
  - rewrite xorb_false_l. intros H. right. auto.
Qed.
Lemma nodup_count_in {A} (P : A -> bool) (l k : list A) :
  NoDup l -> (forall x, In x l -> P x = true -> In x k) -> (count P l <= N.of_nat (length k))%N.
Proof.
  intros Hn H. unfold count.
  assert (Q : (length (filter P l) <= length k)%nat).
  { apply NoDup_incl_length; [apply NoDup_filter; exact Hn|]. intros x Hx. rewrite filter_In in Hx. apply H; tauto. }
  lia.
Qed.

(** ** applyTMR *)
Lemma bit_of_b2n x b : bit_of x b = N.b2n (N.testbit x b).
Proof.
  unfold bit_of. apply N.bits_inj. intros j. rewrite N.land_spec, N.shiftr_spec' .
  destruct (N.eq_dec j 0) as [->|H].
  - rewrite N.add_0_l. change (N.testbit 1 0) with true. rewrite andb_true_r. destruct (N.testbit x b); reflexivity.
  - replace (N.testbit 1 j) with false by (destruct j; [lia|reflexivity]). rewrite andb_false_r.
    destruct (N.testbit x b); simpl; destruct j as [|q]; try lia; reflexivity.
Qed.
Definition majority (a b c : bool) : bool := two_of a b c.
Definition wrong (o a b c : bool) : bool := negb (eqb a o) || negb (eqb b o) || negb (eqb c o).
Lemma vote_bit_eq o m c1 c2 b byte cor tot :
  vote_bit o m c1 c2 b (byte, (cor, tot)) =
  let O := N.testbit o b in let A := N.testbit m b in let B := N.testbit c1 b in let C := N.testbit c2 b in
  (N.lor byte (N.shiftl (N.b2n (majority A B C)) b),
   (cor + (if wrong O A B C && eqb (majority A B C) O then 1 else 0), tot + (if wrong O A B C then 1 else 0)))%N.
Proof.
  unfold vote_bit. rewrite !bit_of_b2n. cbv zeta.
  destruct (N.testbit o b), (N.testbit m b), (N.testbit c1 b), (N.testbit c2 b); cbn; rewrite ?N.add_0_r; reflexivity.
Qed.
Lemma seq_snoc j : seq 0 (S j) = seq 0 j ++ [j].
Proof. rewrite seq_S. reflexivity. Qed.
Lemma shift_b2n_bit v b j : N.testbit (N.shiftl (N.b2n v) b) j = v && (j =? b)%N.
Proof.
  destruct v; [apply shift1_bit|]. unfold N.b2n. rewrite N.shiftl_0_l. apply N.bits_0.
Qed.
Lemma vote_byte o m c1 c2 cor tot (MJ := fun b => majority (N.testbit m b) (N.testbit c1 b) (N.testbit c2 b))
    (WR := fun b => wrong (N.testbit o b) (N.testbit m b) (N.testbit c1 b) (N.testbit c2 b)) :
  let r := for_up 8 0 (vote_bit o m c1 c2) (0%N, (cor, tot)) in
  (forall j, N.testbit (fst r) j = (j <? 8)%N && MJ j) /\
  snd r = (cor + count (fun b => WR (N.of_nat b) && eqb (MJ (N.of_nat b)) (N.testbit o (N.of_nat b))) (seq 0 8),
           tot + count (fun b => WR (N.of_nat b)) (seq 0 8))%N.
Proof.
  intros r.
  assert (G : (fun i st => (forall j, N.testbit (fst st) j = (j <? i)%N && MJ j) /\
    snd st = (cor + count (fun b => WR (N.of_nat b) && eqb (MJ (N.of_nat b)) (N.testbit o (N.of_nat b))) (seq 0 (N.to_nat i)),
           tot + count (fun b => WR (N.of_nat b)) (seq 0 (N.to_nat i)))%N) (0 + N.of_nat 8)%N r).
  { unfold r. apply for_up_inv.
    - split; [intros j; cbn [fst]; rewrite N.bits_0; destruct j; reflexivity|]. change (N.to_nat 0) with 0%nat. cbn [seq snd]. unfold count. cbn [filter length]. change (N.of_nat 0) with 0%N. rewrite !N.add_0_r. reflexivity.
    - intros j [byte [co to]] Hj [H1 H2]. simpl fst in H1. simpl snd in H2. inversion H2; subst co to; clear H2.
      rewrite vote_bit_eq. cbv zeta. cbn [fst snd]. split.
      + intros k. rewrite N.lor_spec, H1, shift_b2n_bit. fold (MJ j).
        destruct (N.eqb_spec k j) as [->|D].
        * rewrite N.ltb_irrefl. rewrite (proj2 (N.ltb_lt j (j + 1))) by lia. simpl. now rewrite andb_true_r.
        * rewrite andb_false_r, orb_false_r. f_equal. destruct (N.ltb_spec k j), (N.ltb_spec k (j + 1)); try reflexivity; lia.
      + rewrite N.add_1_r, N2Nat.inj_succ, seq_snoc, !count_app, !count_cons, N2Nat.id. fold (MJ j) (WR j).
        f_equal; cbn [count length filter]; rewrite ?N.add_assoc; destruct (WR j); simpl; try (destruct (eqb _ _)); unfold count; simpl; lia. }
  cbv beta in G. change (0 + N.of_nat 8)%N with 8%N in G. change (N.to_nat 8) with 8%nat in G. exact G.
Qed.
Definition maj_at (m c1 c2 : list N) (p : cell) := majority (bit_at m p) (bit_at c1 p) (bit_at c2 p).
Definition wrong_at (o m c1 c2 : list N) (p : cell) := wrong (bit_at o p) (bit_at m p) (bit_at c1 p) (bit_at c2 p).
Lemma vote_all_spec os : forall ms c1s c2s cor tot, length ms = length os -> length c1s = length os -> length c2s = length os ->
  let r := vote_all os ms c1s c2s (cor, tot) in
  length (fst r) = length os /\ bytes (fst r) /\
  (forall p, (fst p < length os)%nat -> (snd p < 8)%nat -> bit_at (fst r) p = maj_at ms c1s c2s p) /\
  snd r = (cor + count (fun p => wrong_at os ms c1s c2s p && eqb (maj_at ms c1s c2s p) (bit_at os p)) (cells 8 (length os)),
           tot + count (wrong_at os ms c1s c2s) (cells 8 (length os)))%N.
Proof.
  induction os as [|o os IH]; intros ms c1s c2s cor tot L1 L2 L3 r.
  - unfold r. simpl. repeat split; try constructor; try (intros; simpl in *; lia). f_equal; unfold count; simpl; lia.
  - destruct ms as [|m ms]; [discriminate|]. destruct c1s as [|c1 c1s]; [discriminate|]. destruct c2s as [|c2 c2s]; [discriminate|].
    unfold r. cbn [vote_all].
    generalize (vote_byte o m c1 c2 cor tot). cbv zeta. set (v := for_up 8 0%N (vote_bit o m c1 c2) (0%N, (cor, tot))).
    destruct v as [byte st]. cbn [fst snd]. intros [B1 ->].
    match goal with |- context [vote_all os ms c1s c2s (?a, ?b)] => generalize (IH ms c1s c2s a b ltac:(simpl in L1; lia) ltac:(simpl in L2; lia) ltac:(simpl in L3; lia)) end.
    cbv zeta. set (w := vote_all os ms c1s c2s _). destruct w as [rest st']. cbn [fst snd]. intros (A1 & A2 & A3 & ->).
    repeat split.
    + simpl. now rewrite A1.
    + constructor; [|exact A2]. apply (below_of_bits 8). intros i Hi. rewrite B1.
      destruct (N.ltb_spec i 8); [lia|reflexivity].
    + intros [[|i] b] H1 H2; simpl in H1, H2.
      * unfold bit_at at 1. simpl nth. simpl snd. rewrite B1. rewrite (proj2 (N.ltb_lt (N.of_nat b) 8)) by lia. reflexivity.
      * change (bit_at rest (i, b) = maj_at ms c1s c2s (i, b)). apply A3; simpl; lia.
    + cbn [length]. rewrite cells_S, !count_app, !count_map, <- !N.add_assoc. f_equal.
Qed.
