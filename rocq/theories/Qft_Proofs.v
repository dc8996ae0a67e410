(** The lattice: construction, indices, reads and writes. *)
From Coq Require Import List NArith ZArith Bool Arith Lia SpecFloat FinFun.
Import ListNotations.
From Verif Require Import Outcome Words Floats Bits_Model Qft_Model Qft_Spec.
Local Open Scope Z_scope.

Ltac big := change (2 ^ 64) with 18446744073709551616 in *; change (2 ^ 59) with 576460752303423488 in *; change (2 ^ 32) with 4294967296 in *;
            change (2 ^ 31) with 2147483648 in *; unfold size_max, max_points, int_max, int32 in *; change (2 ^ 64) with 18446744073709551616 in *;
            change (2 ^ 59) with 576460752303423488 in *; change (2 ^ 31) with 2147483648 in *.

(** ** total_size *)
Fixpoint uprod (dims : list Z) : Z := match dims with [] => 1 | d :: r => (d mod 2 ^ 64) * uprod r end.
Lemma umod_pos d : int32 d -> d <> 0 -> 0 < d mod 2 ^ 64 <= size_max.
Proof. intros H N. big. destruct (Z_lt_le_dec d 0). - rewrite <- (Z.mod_add d 1) by lia. rewrite Z.mod_small; lia. - rewrite Z.mod_small; lia. Qed.
Lemma uprod_pos dims : Forall int32 dims -> Forall (fun d => d <> 0) dims -> 0 < uprod dims.
Proof. induction dims as [|d r IH]; intros A B; inversion A; inversion B; subst; cbn [uprod]; [lia|]. pose proof (umod_pos d H1 H5). specialize (IH H2 H6). nia. Qed.
Lemma total_size_spec dims : Forall int32 dims -> Forall (fun d => d <> 0) dims -> forall total, 0 < total <= size_max ->
  total_size dims total = if total * uprod dims <=? size_max then Ret (total * uprod dims) else Throw E_overflow_error.
Proof.
  induction dims as [|d r IH]; intros A B total T; cbn [total_size uprod].
  - replace (total * 1) with total by ring. assert (L : total <=? size_max = true) by (apply Z.leb_le; lia). rewrite L. reflexivity.
  - inversion A; inversion B; subst. pose proof (umod_pos d H1 H5) as U. pose proof (uprod_pos r H2 H6) as P. set (u := d mod 2 ^ 64) in *.
    assert (E0 : u =? 0 = false) by (apply Z.eqb_neq; lia). rewrite E0.
    destruct (Z.ltb_spec (size_max / u) total) as [L|L].
    + assert (size_max < total * u). { destruct (Z_lt_le_dec size_max (total * u)); [assumption|]. assert (total <= size_max / u) by (apply Z.div_le_lower_bound; lia). lia. }
      assert (L2 : total * (u * uprod r) <=? size_max = false) by (apply Z.leb_gt; nia). rewrite L2. reflexivity.
    + assert (total * u <= size_max). { pose proof (Z.mul_div_le size_max u). nia. }
      rewrite Z.mod_small by (unfold size_max in *; nia). rewrite IH by (try assumption; nia). rewrite Z.mul_assoc. reflexivity.
Qed.
Lemma uprod_points dims : Forall (fun d => 0 < d <= int_max) dims -> uprod dims = points dims.
Proof. induction dims as [|d r IH]; intros A; inversion A; subst; cbn [uprod points]; [reflexivity|]. rewrite (IH H2), Z.mod_small; [reflexivity|]. big. lia. Qed.
Lemma uprod_neg dims : Forall int32 dims -> Forall (fun d => d <> 0) dims -> Exists (fun d => d < 0) dims -> max_points < uprod dims.
Proof.
  induction dims as [|d r IH]; intros A B X; inversion A; inversion B; subst; [inversion X|]. cbn [uprod].
  pose proof (umod_pos d H1 H5) as U. pose proof (uprod_pos r H2 H6) as P.
  inversion X; subst.
  - assert (max_points < d mod 2 ^ 64) by (big; rewrite <- (Z.mod_add d 1) by lia; rewrite Z.mod_small; lia). nia.
  - specialize (IH H2 H6 H0). nia.
Qed.
Lemma points_pos dims : Forall (fun d => 0 < d <= int_max) dims -> 0 < points dims.
Proof. induction dims as [|d r IH]; intros A; inversion A; subst; cbn [points]; [lia|]. specialize (IH H2). nia. Qed.
Definition pos_dims (dims : list Z) : Prop := Forall (fun d => 0 < d <= int_max) dims.
Lemma pos_int dims : pos_dims dims -> Forall int32 dims /\ Forall (fun d => d <> 0) dims.
Proof. intros A. split; (eapply Forall_impl; [|exact A]); intros d; cbn beta; big; lia. Qed.
Lemma new_ok D dims sp t : length dims = D -> pos_dims dims -> points dims <= max_points ->
  field_new D dims sp t = Ret (mkF t sp dims (repeat czero (Z.to_nat (points dims)))).
Proof.
  intros L P M. unfold field_new. rewrite L, Nat.eqb_refl. cbn [negb]. destruct (pos_int dims P) as [A B].
  rewrite (total_size_spec dims A B 1) by (big; lia). rewrite (uprod_points dims P), Z.mul_1_l.
  pose proof (points_pos dims P) as PP.
  assert (L1 : points dims <=? size_max = true) by (apply Z.leb_le; big; lia). rewrite L1. cbn [obind].
  assert (L2 : max_points <? points dims = false) by (apply Z.ltb_ge; lia). rewrite L2. reflexivity.
Qed.
Lemma new_bad D dims sp t : length dims = D -> Forall int32 dims -> Forall (fun d => d <> 0) dims -> ~ (pos_dims dims /\ points dims <= max_points) ->
  field_new D dims sp t = Throw E_overflow_error \/ field_new D dims sp t = Throw E_length_error.
Proof.
  intros L A B N. unfold field_new. rewrite L, Nat.eqb_refl. cbn [negb]. rewrite (total_size_spec dims A B 1) by (big; lia). rewrite Z.mul_1_l.
  destruct (uprod dims <=? size_max); [|left; reflexivity]. cbn [obind].
  assert (M : max_points < uprod dims).
  { destruct (Exists_dec (fun d => d < 0) dims) as [X|X]; [intros; apply Z_lt_dec|exact (uprod_neg dims A B X)|].
    assert (P : pos_dims dims). { apply Forall_forall. intros d I. pose proof (proj1 (Forall_forall _ _) A d I). pose proof (proj1 (Forall_forall _ _) B d I). cbn beta in *.
      assert (~ d < 0) by (intros C; apply X, Exists_exists; eauto). big. lia. }
    rewrite (uprod_points dims P). destruct (Z_lt_le_dec max_points (points dims)); [assumption|]. exfalso. auto. }
  apply Z.ltb_lt in M. rewrite M. right. reflexivity.
Qed.

(** ** indices *)
Fixpoint rm (pos dims : list Z) : Z := match pos, dims with p :: ps, d :: ds => p * points ds + rm ps ds | _, _ => 0 end.
Fixpoint rmr (pos dims : list Z) : Z := match pos, dims with p :: ps, d :: ds => p + d * rmr ps ds | _, _ => 0 end.
Lemma points_app a b : points (a ++ b) = points a * points b.
Proof. induction a as [|x r IH]; cbn [points app]; [lia|rewrite IH; ring]. Qed.
Lemma points_rev a : points (rev a) = points a.
Proof. induction a as [|x r IH]; [reflexivity|]. cbn [rev points]. rewrite points_app, IH. cbn [points]. ring. Qed.
Lemma rmr_app a b p d : length a = length b -> rmr (a ++ [p]) (b ++ [d]) = rmr a b + points b * p.
Proof. revert b. induction a as [|x r IH]; intros [|y s] L; try discriminate; cbn [app rmr points]; [lia|]. rewrite (IH s) by (cbn in L; lia). ring. Qed.
Lemma rmr_rev pos dims : length pos = length dims -> rmr (rev pos) (rev dims) = rm pos dims.
Proof. revert dims. induction pos as [|p r IH]; intros [|d s] L; try discriminate; [reflexivity|]. cbn [rev rm]. cbn in L. rewrite rmr_app by (rewrite !rev_length; lia).
  rewrite IH by lia. rewrite points_rev. ring. Qed.
Lemma inside_len dims pos : inside dims pos -> length pos = length dims.
Proof. intros H. induction H; cbn; lia. Qed.
Lemma inside_rev dims pos : inside dims pos -> inside (rev dims) (rev pos).
Proof. intros H. unfold inside in *. induction H; cbn [rev]; [constructor|]. apply Forall2_app; [exact IHForall2|]. repeat constructor; lia. Qed.
Lemma rmr_range dims pos : inside dims pos -> 0 <= rmr pos dims < points dims.
Proof. intros H. induction H; cbn [rmr points]; [lia|]. nia. Qed.
Lemma rm_range dims pos : inside dims pos -> 0 <= rm pos dims < points dims.
Proof. intros H. rewrite <- rmr_rev by (apply inside_len; exact H). rewrite <- (points_rev dims). apply rmr_range, inside_rev, H. Qed.
Lemma rm_inj dims p q : inside dims p -> inside dims q -> rm p dims = rm q dims -> p = q.
Proof.
  revert p q. induction dims as [|d r IH]; intros p q A B E; inversion A; inversion B; subst; [reflexivity|]. cbn [rm] in E.
  pose proof (rm_range r l H3). pose proof (rm_range r l0 H8). assert (x = x0). { destruct (Z.lt_trichotomy x x0) as [C|[C|C]]; [|exact C|]; exfalso; clear - C E H H0; nia. } subst x0. f_equal. apply IH; try assumption. lia.
Qed.
Lemma part_le s d q m : 0 < s -> 0 < d -> 0 < q -> s * (d * q) <= m -> s * d <= m.
Proof. intros A B C H. rewrite Z.mul_assoc in H. assert (0 < s * d) by (apply Z.mul_pos_pos; assumption). nia. Qed.
Lemma index_ok rd : Forall (fun d => 0 < d <= int_max) rd -> forall rp idx stride, inside rd rp -> 0 <= idx < stride -> stride * points rd <= size_max ->
  index_loop rp rd idx stride = Ret (idx + stride * rmr rp rd).
Proof.
  induction rd as [|d r IH]; intros P rp idx stride I X S; inversion I; subst; cbn [index_loop rmr]; [f_equal; ring|]. cbn [points] in S.
  inversion P; subst. pose proof (points_pos r H4) as PP. pose proof (rmr_range r l H3) as RR.
  assert (E : (x <? 0) || (d <=? x) = false) by (apply orb_false_iff; split; [apply Z.ltb_ge|apply Z.leb_gt]; lia). rewrite E.
  assert (DM : d mod 2 ^ 64 = d) by (apply Z.mod_small; big; lia). rewrite DM.
  assert (SD : stride * d <= size_max) by (apply (part_le stride d (points r)); lia).
  assert (E2 : size_max / d <? stride = false) by (apply Z.ltb_ge; apply Z.div_le_lower_bound; lia). rewrite E2.
  assert (B : 0 <= x * stride /\ x * stride + stride <= stride * d) by nia.
  rewrite (Z.mod_small (x * stride)) by (unfold size_max in *; lia). rewrite (Z.mod_small (idx + x * stride)) by (unfold size_max in *; lia).
  rewrite (Z.mod_small (stride * d)) by (unfold size_max in *; nia).
  rewrite (IH H4 l) by (try assumption; nia). f_equal. ring.
Qed.
Lemma index_bad rd : Forall (fun d => 0 < d <= int_max) rd -> forall rp idx stride, length rp = length rd -> ~ inside rd rp -> 0 < stride -> stride * points rd <= size_max ->
  index_loop rp rd idx stride = Throw E_out_of_range.
Proof.
  induction rd as [|d r IH]; intros P [|p rp] idx stride L N S M; cbn in L; try discriminate; [exfalso; apply N; constructor|]. cbn [index_loop]. cbn [points] in M.
  inversion P; subst. pose proof (points_pos r H2) as PP.
  destruct (Z.ltb_spec p 0); [reflexivity|]. destruct (Z.leb_spec d p); [reflexivity|]. cbn [orb].
  assert (DM : d mod 2 ^ 64 = d) by (apply Z.mod_small; big; lia). rewrite DM.
  assert (SD : stride * d <= size_max) by (apply (part_le stride d (points r)); lia).
  assert (E2 : size_max / d <? stride = false) by (apply Z.ltb_ge; apply Z.div_le_lower_bound; lia). rewrite E2.
  rewrite (Z.mod_small (stride * d)) by (unfold size_max in *; nia).
  apply IH; [assumption|lia| |nia|rewrite <- Z.mul_assoc; exact M]. intros I. apply N. constructor; [lia|exact I].
Qed.
Definition wide (f : field) : Prop := pos_dims (f_dims f) /\ points (f_dims f) <= max_points.
Lemma calc_ok f pos : wide f -> inside (f_dims f) pos -> calculateIndex f pos = Ret (to_int (rm pos (f_dims f))).
Proof.
  intros [P M] I. unfold calculateIndex. rewrite (inside_len _ _ I), Nat.eqb_refl. cbn [negb].
  rewrite (index_ok (rev (f_dims f))); [| apply Forall_rev; exact P | apply inside_rev; exact I | lia | rewrite points_rev; big; lia].
  cbn [obind]. rewrite rmr_rev by (apply inside_len; exact I). do 2 f_equal. ring.
Qed.
Lemma inside_rev' dims pos : inside (rev dims) (rev pos) -> inside dims pos.
Proof. intros H. apply inside_rev in H. rewrite !rev_involutive in H. exact H. Qed.
Lemma calc_bad f pos : wide f -> length pos = length (f_dims f) -> ~ inside (f_dims f) pos -> calculateIndex f pos = Throw E_out_of_range.
Proof.
  intros [P M] L N. unfold calculateIndex. rewrite L, Nat.eqb_refl. cbn [negb].
  rewrite (index_bad (rev (f_dims f))); [reflexivity | apply Forall_rev; exact P | rewrite !rev_length; exact L | | lia | rewrite points_rev; big; lia].
  intros I. apply N, inside_rev', I.
Qed.
Lemma calc_arity f pos : length pos <> length (f_dims f) -> calculateIndex f pos = Throw E_invalid_argument.
Proof. intros N. unfold calculateIndex. apply Nat.eqb_neq in N. rewrite N. reflexivity. Qed.
Lemma to_int_small z : 0 <= z < 2 ^ 31 -> to_int z = z.
Proof. intros H. unfold to_int. big. rewrite Z.mod_small by lia. assert (E : z <? 2147483648 = true) by (apply Z.ltb_lt; lia). rewrite E. reflexivity. Qed.
Lemma built_wide f : built f -> wide f.
Proof. intros (P & L & M). split; [exact P|]. big. lia. Qed.

Lemma set_nth_len {A} (l : list A) n v : length (set_nth l n v) = length l.
Proof. revert n. induction l as [|x r IH]; intros [|k]; cbn; auto. Qed.
Lemma set_nth_same {A} (l : list A) n v : (n < length l)%nat -> nth_error (set_nth l n v) n = Some v.
Proof. revert n. induction l as [|x r IH]; intros [|k] H; cbn in *; try lia; [reflexivity|]. apply IH. lia. Qed.
Lemma set_nth_other {A} (l : list A) n m v : n <> m -> nth_error (set_nth l n v) m = nth_error l m.
Proof. revert n m. induction l as [|x r IH]; intros [|k] [|m] H; cbn; try reflexivity; try congruence. apply IH. congruence. Qed.

Definition at_ (f : field) (pos : list Z) : cplx := nth (Z.to_nat (rm pos (f_dims f))) (f_data f) czero.
Lemma get_ok f pos : built f -> inside (f_dims f) pos -> getFieldAt f pos = Ret (at_ f pos).
Proof.
  intros B I. pose proof (rm_range _ _ I) as RR. destruct B as (P & L & M). unfold getFieldAt. rewrite calc_ok by (try exact I; apply built_wide; repeat split; assumption). cbn [obind].
  rewrite to_int_small by lia. assert (E : rm pos (f_dims f) <? 0 = false) by (apply Z.ltb_ge; lia). rewrite E. unfold at_.
  destruct (nth_error (f_data f) (Z.to_nat (rm pos (f_dims f)))) eqn:N; [rewrite (nth_error_nth _ _ _ N); reflexivity|].
  apply nth_error_None in N. lia.
Qed.
Lemma get_arity f pos : length pos <> length (f_dims f) -> getFieldAt f pos = Throw E_invalid_argument.
Proof. intros N. unfold getFieldAt. rewrite calc_arity by exact N. reflexivity. Qed.
Lemma get_bad f pos : wide f -> length pos = length (f_dims f) -> ~ inside (f_dims f) pos -> getFieldAt f pos = Throw E_out_of_range.
Proof. intros B L N. unfold getFieldAt. rewrite (calc_bad f pos B L N). reflexivity. Qed.
Lemma set_arity f pos v : length pos <> length (f_dims f) -> setFieldAt f pos v = Throw E_invalid_argument.
Proof. intros N. unfold setFieldAt. rewrite calc_arity by exact N. reflexivity. Qed.
Lemma set_bad f pos v : wide f -> length pos = length (f_dims f) -> ~ inside (f_dims f) pos -> setFieldAt f pos v = Throw E_out_of_range.
Proof. intros B L N. unfold setFieldAt. rewrite (calc_bad f pos B L N). reflexivity. Qed.
Lemma set_ok f pos v : built f -> inside (f_dims f) pos ->
  setFieldAt f pos v = Ret (with_data f (set_nth (f_data f) (Z.to_nat (rm pos (f_dims f))) v)).
Proof.
  intros B I. pose proof (rm_range _ _ I) as RR. destruct B as (P & L & M). unfold setFieldAt. rewrite calc_ok by (try exact I; apply built_wide; repeat split; assumption). cbn [obind].
  rewrite to_int_small by lia. assert (E : (rm pos (f_dims f) <? 0) || (Z.of_nat (length (f_data f)) <=? rm pos (f_dims f)) = false) by (apply orb_false_iff; split; [apply Z.ltb_ge|apply Z.leb_gt]; lia). rewrite E. reflexivity.
Qed.
(** the working form: a write to a built field *)
Lemma set_get f pos v : built f -> inside (f_dims f) pos -> exists g, setFieldAt f pos v = Ret g /\ same_shape f g /\ built g /\
  at_ g pos = v /\ forall q, inside (f_dims f) q -> q <> pos -> at_ g q = at_ f q.
Proof.
  intros B I. rewrite (set_ok f pos v B I). eexists. split; [reflexivity|].
  pose proof (rm_range _ _ I) as RR. destruct B as (P & L & M).
  assert (LT : (Z.to_nat (rm pos (f_dims f)) < length (f_data f))%nat) by lia.
  split; [unfold same_shape; cbn [with_data f_type f_spacing f_dims f_data]; rewrite set_nth_len; auto|].
  split; [unfold built; cbn [with_data f_dims f_data]; rewrite set_nth_len; auto|]. split.
  - unfold at_. cbn [with_data f_dims f_data]. apply nth_error_nth. apply set_nth_same. exact LT.
  - intros q Q N. unfold at_. cbn [with_data f_dims f_data]. pose proof (rm_range _ _ Q).
    assert (Z.to_nat (rm q (f_dims f)) < length (f_data f))%nat by lia.
    apply nth_error_nth. rewrite set_nth_other; [apply nth_error_nth'; assumption|]. intros E. apply N. apply (rm_inj (f_dims f)); try assumption. lia.
Qed.
Lemma shape_built f g : same_shape f g -> built f -> built g.
Proof. intros (A & B & C & D) (P & L & M). unfold built. rewrite C, D. auto. Qed.
Lemma shape_trans f g h : same_shape f g -> same_shape g h -> same_shape f h.
Proof. unfold same_shape. intuition congruence. Qed.
Lemma shape_refl f : same_shape f f.
Proof. unfold same_shape. auto. Qed.
Lemma total_nz dims : forall n z, total_size dims n = Ret z -> Forall (fun d => d <> 0) dims.
Proof.
  induction dims as [|d r IH]; intros n z H; [constructor|]. cbn [total_size] in H. destruct (d mod 2 ^ 64 =? 0) eqn:E; [discriminate|].
  destruct (size_max / (d mod 2 ^ 64) <? n); [discriminate|]. constructor; [intros ->; discriminate|]. exact (IH _ _ H).
Qed.
Lemma new_built D dims sp t f : field_new D dims sp t = Ret f -> Forall int32 dims -> points dims <= 2 ^ 31 -> built f /\ f_dims f = dims /\ f_type f = t /\ f_spacing f = sp /\ length dims = D /\ f_data f = repeat czero (Z.to_nat (points dims)).
Proof.
  intros H A M. assert (LD : length dims = D). { unfold field_new in H. destruct (Nat.eqb_spec (length dims) D); [assumption|discriminate]. }
  assert (NZ : Forall (fun d => d <> 0) dims).
  { unfold field_new in H. rewrite LD, Nat.eqb_refl in H. cbn [negb] in H. destruct (total_size dims 1) as [z| | |] eqn:T; try discriminate. exact (total_nz dims 1 z T). }
  assert (PD : pos_dims dims).
  { destruct (Forall_dec (fun d => 0 < d <= int_max) (fun d => ltac:(destruct (Z_lt_dec 0 d); destruct (Z_le_dec d int_max); (left; lia) || (right; lia))) dims) as [F|F]; [exact F|].
    exfalso. destruct (new_bad D dims sp t LD A NZ) as [C|C]; try congruence. intros [X _]. contradiction. }
  rewrite (new_ok D dims sp t LD PD) in H by (big; lia). injection H as <-. cbn [f_dims f_type f_spacing f_data].
  split; [|auto]. unfold built. cbn [f_dims f_data]. split; [exact PD|]. split; [|exact M]. rewrite repeat_length. pose proof (points_pos dims PD). lia.
Qed.
Lemma fresh_at D dims sp t f pos : field_new D dims sp t = Ret f -> Forall int32 dims -> points dims <= 2 ^ 31 -> at_ f pos = czero.
Proof. intros H A M. destruct (new_built D dims sp t f H A M) as (_ & _ & _ & _ & _ & E). unfold at_. rewrite E. apply nth_repeat. Qed.

(** ** sweeps over all points *)
Lemma zrange_in a n k : In k (zrange a n) <-> a <= k < a + n.
Proof.
  unfold zrange. rewrite in_map_iff. split.
  - intros (j & <- & I). apply in_seq in I. lia.
  - intros H. exists (Z.to_nat (k - a)). split; [lia|]. apply in_seq. lia.
Qed.
Lemma zrange_nodup a n : NoDup (zrange a n).
Proof. unfold zrange. apply FinFun.Injective_map_NoDup; [intros x y; lia|apply seq_NoDup]. Qed.
Lemma positions_in dims pos : In pos (positions dims) <-> inside dims pos.
Proof.
  revert pos. induction dims as [|d r IH]; intros pos; cbn [positions].
  - split; [intros [<-|[]]; constructor|intros H; inversion H; left; reflexivity].
  - rewrite in_flat_map. split.
    + intros (i & I & J). apply in_map_iff in J. destruct J as (q & <- & Q). apply zrange_in in I. constructor; [lia|apply IH; exact Q].
    + intros H. inversion H; subst. exists x. split; [apply zrange_in; lia|]. apply in_map, IH. assumption.
Qed.
Lemma nodup_flat {A B} (g : A -> list B) (l : list A) : NoDup l -> (forall a, In a l -> NoDup (g a)) -> (forall a b x, In a l -> In b l -> In x (g a) -> In x (g b) -> a = b) -> NoDup (flat_map g l).
Proof.
  induction l as [|a r IH]; intros N E D; cbn [flat_map]; [constructor|]. inversion N; subst.
  assert (NR : NoDup (flat_map g r)) by (apply IH; [assumption|intros; apply E; right; assumption|intros; eapply D; eauto; right; assumption]).
  assert (NA := E a (or_introl eq_refl)).
  assert (DD : forall x, In x (g a) -> ~ In x (flat_map g r)).
  { intros x I J. apply in_flat_map in J. destruct J as (b & Ib & Jb). assert (a = b) by (eapply D; eauto; [left; reflexivity|right; assumption]). subst. contradiction. }
  clear -NA NR DD. induction (g a) as [|x s IHs]; cbn [app]; [exact NR|]. inversion NA; subst. constructor.
  - rewrite in_app_iff. intros [C|C]; [contradiction|]. exact (DD x (or_introl eq_refl) C).
  - apply IHs; [assumption|]. intros y I. apply DD. right. exact I.
Qed.
Lemma positions_nodup dims : NoDup (positions dims).
Proof.
  induction dims as [|d r IH]; cbn [positions]; [repeat constructor; intros []|]. apply nodup_flat.
  - apply zrange_nodup.
  - intros i _. apply FinFun.Injective_map_NoDup; [intros x y E; congruence|exact IH].
  - intros a b x _ _ A B. apply in_map_iff in A, B. destruct A as (p & <- & _), B as (q & E & _). congruence.
Qed.
Lemma update_loop dims (g : list Z -> field -> outcome field) (val : list Z -> cplx -> cplx) :
  (forall f pos, built f -> f_dims f = dims -> inside dims pos -> exists h, g pos f = Ret h /\ same_shape f h /\ at_ h pos = val pos (at_ f pos) /\
     forall q, inside dims q -> q <> pos -> at_ h q = at_ f q) ->
  forall ps f, built f -> f_dims f = dims -> NoDup ps -> (forall p, In p ps -> inside dims p) ->
  exists h, for_each g ps f = Ret h /\ same_shape f h /\ (forall p, In p ps -> at_ h p = val p (at_ f p)) /\ (forall p, inside dims p -> ~ In p ps -> at_ h p = at_ f p).
Proof.
  intros STEP. induction ps as [|p r IH]; intros f B DF N I; cbn [for_each].
  - exists f. split; [reflexivity|]. split; [apply shape_refl|]. split; [intros p []|auto].
  - inversion N; subst. destruct (STEP f p B eq_refl (I p (or_introl eq_refl))) as (h & E & SH & A & O). rewrite E. cbn [obind].
    assert (DH : f_dims h = f_dims f) by apply SH.
    destruct (IH h (shape_built _ _ SH B) DH H2) as (h' & E' & SH' & A' & O').
    { intros q Q. apply I. right. exact Q. }
    exists h'. split; [exact E'|]. split; [exact (shape_trans _ _ _ SH SH')|]. split.
    + intros q [<-|Q].
      * rewrite O'; [exact A|apply I; left; reflexivity|assumption].
      * rewrite (A' q Q). rewrite O; [reflexivity|apply I; right; exact Q|intros ->; contradiction].
    + intros q Q NI. rewrite O'; [apply O; [exact Q|intros ->; apply NI; left; reflexivity]|exact Q|intros C; apply NI; right; exact C].
Qed.
Lemma sweep_ok (g : list Z -> cplx -> outcome cplx) (val : list Z -> cplx -> cplx) f : built f ->
  (forall pos v, inside (f_dims f) pos -> g pos v = Ret (val pos v)) ->
  exists h, sweep g f = Ret h /\ same_shape f h /\ forall pos, inside (f_dims f) pos -> at_ h pos = val pos (at_ f pos).
Proof.
  intros B G. unfold sweep.
  destruct (update_loop (f_dims f) (point_update g) val) with (ps := positions (f_dims f)) (f := f) as (h & E & SH & A & O).
  - intros k pos Bk Dk Ik. unfold point_update. rewrite (get_ok k pos Bk) by (rewrite Dk; exact Ik). cbn [obind]. rewrite G by exact Ik. cbn [obind].
    destruct (set_get k pos (val pos (at_ k pos)) Bk) as (h & E & SH & _ & A & O); [rewrite Dk; exact Ik|]. rewrite Dk in O. exists h. auto.
  - exact B.
  - reflexivity.
  - apply positions_nodup.
  - intros p P. apply positions_in. exact P.
  - exists h. split; [exact E|]. split; [exact SH|]. intros pos I. apply A, positions_in, I.
Qed.
(** fields with the same shape and the same values are the same field *)
Lemma length_positions dims : pos_dims dims -> Z.of_nat (length (positions dims)) = points dims.
Proof.
  induction dims as [|d r IH]; intros P; [reflexivity|]. inversion P; subst. cbn [positions points]. specialize (IH H2).
  assert (X : forall l, length (flat_map (fun i => map (cons i) (positions r)) l) = (length l * length (positions r))%nat).
  { induction l as [|x s IHl]; cbn [flat_map length]; [reflexivity|]. rewrite app_length, map_length, IHl. lia. }
  rewrite X. unfold zrange. rewrite map_length, seq_length. lia.
Qed.
Lemma index_onto dims n : pos_dims dims -> 0 <= n < points dims -> exists pos, inside dims pos /\ rm pos dims = n.
Proof.
  revert n. induction dims as [|d r IH]; intros n P H; cbn [points] in H.
  - exists []. split; [constructor|]. cbn. lia.
  - inversion P; subst. pose proof (points_pos r H3) as PP.
    destruct (IH (n mod points r) H3) as (pos & I & E); [apply Z.mod_pos_bound; lia|].
    exists ((n / points r) :: pos). split.
    + constructor; [|exact I]. split; [apply Z.div_pos; lia|]. apply Z.div_lt_upper_bound; nia.
    + cbn [rm]. rewrite E. pose proof (Z.div_mod n (points r)). lia.
Qed.
Lemma field_ext f g : built f -> same_shape f g -> (forall pos, inside (f_dims f) pos -> at_ g pos = at_ f pos) -> g = f.
Proof.
  intros B (T & S & D & L) A. destruct f as [ft fs fd fdat], g as [gt gs gd gdat]. cbn [f_type f_spacing f_dims f_data] in *. subst.
  f_equal. apply (nth_ext _ _ czero czero L). intros n Hn. destruct B as (P & BL & M). cbn [f_dims f_data] in *.
  destruct (index_onto fd (Z.of_nat n) P) as (pos & I & E); [lia|]. specialize (A pos I). unfold at_ in A. cbn [f_dims f_data] in A. rewrite E, Nat2Z.id in A. exact A.
Qed.
