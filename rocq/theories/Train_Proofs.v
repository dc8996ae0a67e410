(** Injection: which values change and how many. *)
From Coq Require Import List NArith ZArith Bool Arith Lia SpecFloat.
Import ListNotations.
From Verif Require Import Outcome Words Floats Approx_Model Bits_Model PNN_Model PNN_Spec Train_Model Train_Spec.
Local Open Scope nat_scope.

Lemma weight_prob_chance r l i j : weight_prob r l i j = chance r l i j.
Proof. unfold weight_prob, chance. destruct (target r); [|reflexivity]. destruct (crit r) as [m|]; [|reflexivity]. destruct (get3 m l i j); reflexivity. Qed.
Lemma bias_prob_chance r : bias_prob r = bias_chance r. Proof. reflexivity. Qed.
Lemma flip_one v b : flipBit v b = one_flip v b.
Proof. unfold flipBit, one_flip. f_equal. rewrite N.shiftl_mul_pow2. apply N.mul_1_l. Qed.

Definition wval (r : rat) (d : idraw) (l i j : nat) (v : N) : N := if weight_hit r d (l, i, j) then one_flip v (snd (wdr d l i j)) else v.
Definition bval (r : rat) (d : idraw) (l j : nat) (v : N) : N := if bias_hit r d (l, j) then one_flip v (snd (bdr d l j)) else v.
Definition b2Z (b : bool) : Z := if b then 1%Z else 0%Z.
Definition cnt {A} (f : A -> bool) (l : list A) : Z := Z.of_nat (length (filter f l)).
Lemma cnt_cons {A} f (a : A) l : cnt f (a :: l) = (b2Z (f a) + cnt f l)%Z.
Proof. unfold cnt; cbn [filter]. destruct (f a); cbn [length b2Z]; lia. Qed.
Lemma cnt_app {A} f (l l' : list A) : cnt f (l ++ l') = (cnt f l + cnt f l')%Z.
Proof. unfold cnt. rewrite filter_app, app_length. lia. Qed.
Lemma cnt_bound {A} f (l : list A) : (0 <= cnt f l <= Z.of_nat (length l))%Z.
Proof. unfold cnt. split; [lia|]. apply inj_le. induction l as [|a l IH]; [reflexivity|]; cbn [filter length]. destruct (f a); cbn [length]; lia. Qed.

Lemma strike_w r d l i j v n : strike_one (wdr d l i j) (weight_prob r l i j) v n = (wval r d l i j v, n + b2Z (weight_hit r d (l, i, j)))%Z.
Proof. unfold strike_one, wval, weight_hit. rewrite weight_prob_chance. destruct (flt _ _); cbn [b2Z]; rewrite ?flip_one; f_equal; lia. Qed.
Lemma strike_b r d l j v n : strike_one (bdr d l j) (bias_prob r) v n = (bval r d l j v, n + b2Z (bias_hit r d (l, j)))%Z.
Proof. unfold strike_one, bval, bias_hit. rewrite bias_prob_chance. destruct (flt _ _); cbn [b2Z]; rewrite ?flip_one; f_equal; lia. Qed.

Fixpoint mapi {A B} (f : nat -> A -> B) (k : nat) (l : list A) : list B := match l with [] => [] | x :: l => f k x :: mapi f (S k) l end.
Lemma nth_mapi {A B} (f : nat -> A -> B) l k n : nth_error (mapi f k l) n = option_map (f (k + n)) (nth_error l n).
Proof. revert k n; induction l as [|x l IH]; intros k [|n]; cbn [mapi nth_error option_map]; rewrite ?Nat.add_0_r, ?IH; try reflexivity. replace (S k + n) with (k + S n) by lia. reflexivity. Qed.
Lemma mapi_length {A B} (f : nat -> A -> B) l k : length (mapi f k l) = length l.
Proof. revert k; induction l; intros; cbn; auto. Qed.

Lemma inject_row_eq r d l i row j n : inject_row r d l i j row n = (mapi (wval r d l i) j row, n + cnt (weight_hit r d) (map (fun k => (l, i, k)) (seq j (length row))))%Z.
Proof.
  revert j n; induction row as [|v row IH]; intros j n; cbn [inject_row mapi length seq map].
  - unfold cnt; cbn. f_equal; lia.
  - rewrite strike_w, IH, cnt_cons. f_equal. lia.
Qed.
Definition row_cells (l i : nat) (w : list (list N)) : list (nat * nat * nat) := concat (mapi (fun i row => map (fun k => (l, i, k)) (seq 0 (length row))) i w).
Lemma inject_rows_eq r d l w i n : inject_rows r d l i w n = (mapi (fun i row => mapi (wval r d l i) 0 row) i w, n + cnt (weight_hit r d) (row_cells l i w))%Z.
Proof.
  revert i n; induction w as [|row w IH]; intros i n; cbn [inject_rows mapi].
  - unfold cnt; cbn. f_equal; lia.
  - rewrite inject_row_eq, IH. unfold row_cells; cbn [mapi concat]. rewrite cnt_app. f_equal. lia.
Qed.
Lemma inject_bias_eq r d l b j n : inject_bias r d l j b n = (mapi (bval r d l) j b, n + cnt (bias_hit r d) (map (fun k => (l, k)) (seq j (length b))))%Z.
Proof.
  revert j n; induction b as [|v b IH]; intros j n; cbn [inject_bias mapi length seq map].
  - unfold cnt; cbn. f_equal; lia.
  - rewrite strike_b, IH, cnt_cons. f_equal. lia.
Qed.
Definition layer_val (r : rat) (d : idraw) (l : nat) (p : list (list N) * list N) : list (list N) * list N :=
  (mapi (fun i row => mapi (wval r d l i) 0 row) 0 (fst p), mapi (bval r d l) 0 (snd p)).
Definition wcells (l : nat) (m : list (list (list N) * list N)) := concat (mapi (fun l p => row_cells l 0 (fst p)) l m).
Definition bcells (l : nat) (m : list (list (list N) * list N)) := concat (mapi (fun l (p : list (list N) * list N) => map (fun k => (l, k)) (seq 0 (length (snd p)))) l m).
Lemma inject_layers_eq r d m l n : inject_layers r d l m n = (mapi (layer_val r d) l m, n + cnt (weight_hit r d) (wcells l m) + cnt (bias_hit r d) (bcells l m))%Z.
Proof.
  revert l n; induction m as [|[w b] m IH]; intros l n; cbn [inject_layers mapi].
  - unfold cnt; cbn. f_equal; lia.
  - rewrite inject_rows_eq, inject_bias_eq, IH. unfold wcells, bcells; cbn [mapi concat fst snd]. rewrite !cnt_app. f_equal. lia.
Qed.

(** the lists of cells *)
Lemma mapi_nth {A B} (f : nat -> A -> B) (dflt : A) (l : list A) o : mapi f o l = map (fun k => f k (nth (k - o) l dflt)) (seq o (length l)).
Proof.
  revert o; induction l as [|x l IH]; intros o; [reflexivity|]. cbn [mapi length seq map]. rewrite Nat.sub_diag, IH. f_equal.
  apply map_ext_in. intros k Hk. apply in_seq in Hk. replace (k - o) with (S (k - S o)) by lia. reflexivity.
Qed.
Lemma flat_map_map {A B} (f : A -> list B) l : flat_map f l = concat (map f l). Proof. apply flat_map_concat_map. Qed.
Lemma wcells_eq m : wcells 0 m = weight_cells m.
Proof.
  unfold wcells, weight_cells. rewrite flat_map_map, (mapi_nth _ ([], [])). f_equal. apply map_ext. intros l. rewrite Nat.sub_0_r.
  unfold row_cells. rewrite flat_map_map, (mapi_nth _ []). f_equal. apply map_ext. intros i. rewrite Nat.sub_0_r. reflexivity.
Qed.
Lemma bcells_eq m : bcells 0 m = bias_cells m.
Proof. unfold bcells, bias_cells. rewrite flat_map_map, (mapi_nth _ ([], [])). f_equal. apply map_ext. intros l. rewrite Nat.sub_0_r. reflexivity. Qed.

Definition struck (r : rat) (d : idraw) (m : list (list (list N) * list N)) := mapi (layer_val r d) 0 m.
Lemma inject_eq r s d : injectRadiationEffects r s d =
  if (fitsb int32 (hits r d (mirror s)) && fitsb int32 (flips r + hits r d (mirror s)))%bool then Ret (with_flips r (flips r + hits r d (mirror s)), with_mirror s (struck r d (mirror s)))
  else UB UB_signed_overflow.
Proof.
  unfold injectRadiationEffects. rewrite inject_layers_eq, wcells_eq, bcells_eq. cbn iota.
  replace (0 + cnt (weight_hit r d) (weight_cells (mirror s)) + cnt (bias_hit r d) (bias_cells (mirror s)))%Z with (hits r d (mirror s)) by (unfold hits, cnt; lia).
  unfold arith. change (isg int32) with true. destruct (fitsb int32 (hits r d (mirror s))); cbn [obind andb]; [|reflexivity]. destruct (fitsb int32 _); reflexivity.
Qed.
Lemma hits_bound r d m : (0 <= hits r d m <= Z.of_nat (parameters m))%Z.
Proof. unfold hits, parameters. pose proof (cnt_bound (weight_hit r d) (weight_cells m)). pose proof (cnt_bound (bias_hit r d) (bias_cells m)). unfold cnt in *. lia. Qed.

(** values after an injection *)
Lemma get3_struck r d m l i j : get3 (map fst (struck r d m)) l i j = option_map (wval r d l i j) (get3 (map fst m) l i j).
Proof.
  unfold get3, struck. rewrite !nth_error_map, nth_mapi. cbn [plus]. destruct (nth_error m l) as [[w b]|]; cbn [option_map]; [|reflexivity].
  unfold layer_val; cbn [fst]. rewrite nth_mapi. cbn [plus]. destruct (nth_error w i) as [row|]; cbn [option_map]; [|reflexivity]. rewrite nth_mapi. reflexivity.
Qed.
Lemma get2_struck r d m l j : get2 (map snd (struck r d m)) l j = option_map (bval r d l j) (get2 (map snd m) l j).
Proof.
  unfold get2, struck. rewrite !nth_error_map, nth_mapi. cbn [plus]. destruct (nth_error m l) as [[w b]|]; cbn [option_map]; [|reflexivity].
  unfold layer_val; cbn [snd]. rewrite nth_mapi. reflexivity.
Qed.
Lemma map_mapi {A B C} (g : B -> C) (f : nat -> A -> B) l o : map g (mapi f o l) = mapi (fun k x => g (f k x)) o l.
Proof. revert o; induction l; intros; cbn; f_equal; auto. Qed.
Lemma mapi_const {A B} (f : nat -> A -> B) (g : A -> B) l o : (forall k x, f k x = g x) -> mapi f o l = map g l.
Proof. intros H; revert o; induction l; intros; cbn; f_equal; auto. Qed.
Lemma shape_struck r d m : shape (struck r d m) = shape m.
Proof.
  unfold shape, struck. rewrite map_mapi. apply mapi_const. intros l [w b]. unfold layer_val; cbn [fst snd]. rewrite mapi_length. f_equal.
  rewrite map_mapi. apply mapi_const. intros i row. apply mapi_length.
Qed.
(** the cells depend on the shape alone *)
Lemma cells_shape m m' : shape m = shape m' -> weight_cells m = weight_cells m' /\ bias_cells m = bias_cells m'.
Proof.
  intros H. assert (HL : length m = length m') by (rewrite <- (map_length (fun p => (map (@length N) (fst p), length (snd p))) m); unfold shape in H; rewrite H; apply map_length).
  assert (HN : forall l, (map (@length N) (fst (nth l m ([], []))), length (snd (nth l m ([], [])))) = (map (@length N) (fst (nth l m' ([], []))), length (snd (nth l m' ([], []))))).
  { intros l. pose proof (map_nth (fun p => (map (@length N) (fst p), length (snd p))) m ([], []) l) as A.
    pose proof (map_nth (fun p => (map (@length N) (fst p), length (snd p))) m' ([], []) l) as B. unfold shape in H. rewrite H in A. rewrite <- A, <- B. reflexivity. }
  split.
  - unfold weight_cells. rewrite HL, !flat_map_map. f_equal. apply map_ext. intros l. pose proof (HN l) as E. injection E as E _.
    assert (E2 : length (fst (nth l m ([], []))) = length (fst (nth l m' ([], [])))) by (rewrite <- (map_length (@length N)), E; apply map_length).
    rewrite E2, !flat_map_map. f_equal. apply map_ext. intros i.
    replace (length (nth i (fst (nth l m ([], []))) [])) with (length (nth i (fst (nth l m' ([], []))) [])); [reflexivity|].
    rewrite <- !(map_nth (@length N)), E. reflexivity.
  - unfold bias_cells. rewrite HL, !flat_map_map. f_equal. apply map_ext. intros l. pose proof (HN l) as E. injection E as _ E. rewrite E. reflexivity.
Qed.
Lemma hits_shape r d m m' : shape m = shape m' -> hits r d m = hits r d m'.
Proof. intros H. unfold hits. destruct (cells_shape m m' H) as [-> ->]. reflexivity. Qed.
Lemma parameters_shape m m' : shape m = shape m' -> parameters m = parameters m'.
Proof. intros H. unfold parameters. destruct (cells_shape m m' H) as [-> ->]. reflexivity. Qed.
