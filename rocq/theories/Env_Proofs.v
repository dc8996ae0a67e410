(** Phases by time, the worst case, standard missions, properties. *)
From Coq Require Import List NArith ZArith Bool Arith Lia String SpecFloat.
Import ListNotations.
From Verif Require Import Outcome Words Floats Qft_Model Qft_Proofs Env_Model Env_Spec.
Local Open Scope Z_scope.

(** ** phases by time *)
Definition nonneg_dur (ps : list phase) : Prop := Forall (fun p => 0 <= p_dur p) ps.
Lemma dur_app a b : duration (a ++ b) = duration a + duration b.
Proof. induction a as [|p r IH]; cbn [app duration]; lia. Qed.
Lemma dur_pos ps : nonneg_dur ps -> 0 <= duration ps.
Proof. induction ps as [|p r IH]; intros H; cbn [duration]; [lia|]. inversion H; subst. specialize (IH H3). lia. Qed.
Lemma loop_in t pre p post : nonneg_dur (pre ++ p :: post) -> forall el last, 0 <= el -> el + duration pre + p_dur p <= int64_max ->
  (pre = [] \/ el + duration pre <= t) -> t < el + duration pre + p_dur p -> time_loop t el last (pre ++ p :: post) = Ret (p_env p).
Proof.
  induction pre as [|q r IH]; intros N el last He B Hl Ht; cbn [app time_loop duration] in *.
  - inversion N; subst. replace (el + 0 + p_dur p) with (el + p_dur p) in * by lia. unfold int64_min in *.
    destruct (Z.ltb_spec (el + p_dur p) (- 2 ^ 63)); [lia|]. destruct (Z.ltb_spec int64_max (el + p_dur p)); [lia|]. cbn [orb].
    destruct (Z.ltb_spec t (el + p_dur p)); [reflexivity|lia].
  - inversion N as [|? ? Hq N']; subst. destruct Hl as [Hl|Hl]; [discriminate|]. pose proof (dur_pos _ N') as Q. rewrite dur_app in Q. cbn [duration] in Q.
    assert (0 <= duration r) as Qr by (apply dur_pos; apply Forall_app in N'; apply N').
    assert (0 <= p_dur p) as Qp by (apply Forall_app in N'; destruct N' as (_ & N2); inversion N2; assumption).
    unfold int64_min in *. destruct (Z.ltb_spec (el + p_dur q) (- 2 ^ 63)); [lia|]. destruct (Z.ltb_spec int64_max (el + p_dur q)); [lia|]. cbn [orb].
    destruct (Z.ltb_spec t (el + p_dur q)); [lia|]. apply IH; [exact N'|lia|lia|right; lia|lia].
Qed.
Lemma loop_end t ps p : nonneg_dur (ps ++ [p]) -> forall el last, 0 <= el -> el + duration (ps ++ [p]) <= int64_max -> el + duration (ps ++ [p]) <= t ->
  time_loop t el last (ps ++ [p]) = Ret (p_env p).
Proof.
  induction ps as [|q r IH]; intros N el last He B Ht; cbn [app time_loop duration] in *.
  - inversion N; subst. unfold int64_min. destruct (Z.ltb_spec (el + p_dur p) (- 2 ^ 63)); [lia|]. destruct (Z.ltb_spec int64_max (el + p_dur p)); [lia|]. cbn [orb].
    destruct (Z.ltb_spec t (el + p_dur p)); [lia|reflexivity].
  - inversion N as [|? ? Hq N']; subst. pose proof (dur_pos _ N') as Q. unfold int64_min.
    destruct (Z.ltb_spec (el + p_dur q) (- 2 ^ 63)); [lia|]. destruct (Z.ltb_spec int64_max (el + p_dur q)); [lia|]. cbn [orb].
    destruct (Z.ltb_spec t (el + p_dur q)); [lia|]. apply IH; [exact N'|lia|lia|lia].
Qed.
Lemma loop_ovf t pre p post : nonneg_dur (pre ++ p :: post) -> forall el last, 0 <= el -> el + duration pre <= int64_max -> int64_max < el + duration pre + p_dur p ->
  el + duration pre <= t -> time_loop t el last (pre ++ p :: post) = UB UB_signed_overflow.
Proof.
  induction pre as [|q r IH]; intros N el last He B O Ht; cbn [app time_loop duration] in *.
  - replace (el + 0 + p_dur p) with (el + p_dur p) in * by lia. destruct (Z.ltb_spec int64_max (el + p_dur p)); [|lia]. rewrite orb_true_r. reflexivity.
  - inversion N as [|? ? Hq N']; subst. assert (0 <= duration r) as Qr by (apply dur_pos; apply Forall_app in N'; apply N').
    unfold int64_min. destruct (Z.ltb_spec (el + p_dur q) (- 2 ^ 63)); [lia|]. destruct (Z.ltb_spec int64_max (el + p_dur q)); [lia|]. cbn [orb].
    destruct (Z.ltb_spec t (el + p_dur q)); [lia|]. apply IH; [exact N'|lia|lia|lia|lia].
Qed.
Lemma split_at t ps : forall el, nonneg_dur ps -> ps <> [] -> el + duration ps <= t \/
  exists pre p post, ps = pre ++ p :: post /\ (pre = [] \/ el + duration pre <= t) /\ t < el + duration pre + p_dur p.
Proof.
  induction ps as [|q r IH]; intros el N NE; [congruence|]. inversion N as [|? ? Hq N']; subst.
  destruct (Z_lt_ge_dec t (el + p_dur q)) as [H|H].
  - right. exists [], q, r. cbn [app duration]. split; [reflexivity|]. split; [left; reflexivity|lia].
  - destruct r as [|q' r'].
    + left. cbn [duration]. lia.
    + destruct (IH (el + p_dur q) N' ltac:(discriminate)) as [L|(pre & p & post & A & B & C)].
      * left. cbn [duration] in *. lia.
      * right. exists (q :: pre), p, post. cbn [app duration]. split; [rewrite A; reflexivity|]. split; [right; destruct B as [B|B]; [subst pre; cbn [duration]; lia|lia]|lia].
Qed.
Lemma ovf_split ps : forall el, nonneg_dur ps -> 0 <= el <= int64_max -> int64_max < el + duration ps ->
  exists pre p post, ps = pre ++ p :: post /\ el + duration pre <= int64_max /\ int64_max < el + duration pre + p_dur p.
Proof.
  induction ps as [|q r IH]; intros el N He O; cbn [duration] in O; [lia|]. inversion N as [|? ? Hq N']; subst.
  destruct (Z_lt_ge_dec int64_max (el + p_dur q)) as [H|H].
  - exists [], q, r. cbn [app duration]. repeat split; lia.
  - destruct (IH (el + p_dur q) N' ltac:(lia) ltac:(lia)) as (pre & p & post & A & B & C). exists (q :: pre), p, post. cbn [app duration]. rewrite A. repeat split; lia.
Qed.

(** ** the order of floats that are not NaN *)
Lemma pcomp m n : Pos.compare_cont Eq m n = Z.compare (Z.pos m) (Z.pos n). Proof. reflexivity. Qed.
Ltac fcases := unfold flt, fle, SFltb, SFleb, SFcompare in *;
  repeat match goal with |- context [match ?s with true => _ | false => _ end] => destruct s | H : context [match ?s with true => _ | false => _ end] |- _ => destruct s end.
Lemma fle_total x y : x <> S754_nan -> y <> S754_nan -> flt x y = false -> fle y x = true.
Proof.
  intros Hx Hy. destruct x as [sx|sx| |sx mx ex], y as [sy|sy| |sy my ey]; try congruence; unfold flt, fle, SFltb, SFleb, SFcompare; try (destruct sx, sy; try reflexivity; try discriminate);
    try (destruct sx; try reflexivity; try discriminate); try (destruct sy; try reflexivity; try discriminate);
    rewrite ?pcomp; rewrite (Z.compare_antisym ex ey), ?(Z.compare_antisym (Z.pos mx) (Z.pos my)); destruct (Z.compare_spec ex ey); cbn [CompOpp]; try reflexivity; try discriminate;
    destruct (Z.compare_spec (Z.pos mx) (Z.pos my)); cbn [CompOpp]; try reflexivity; try discriminate.
Qed.
Lemma flt_fle x y : flt x y = true -> fle x y = true.
Proof. unfold flt, fle, SFltb, SFleb. destruct (SFcompare x y) as [[]|]; congruence. Qed.
Lemma flt_nn x y : flt x y = true -> x <> S754_nan /\ y <> S754_nan.
Proof. unfold flt, SFltb. intros H. split; intros ->; [discriminate|destruct x; discriminate]. Qed.
Lemma flt_trans x y z : fle x y = true -> flt y z = true -> flt x z = true.
Proof.
  destruct x as [sx|sx| |sx mx ex], y as [sy|sy| |sy my ey], z as [sz|sz| |sz mz ez]; unfold flt, fle, SFltb, SFleb, SFcompare; try discriminate;
    try (destruct sx); try (destruct sy); try (destruct sz); try discriminate; try reflexivity; rewrite ?pcomp;
    repeat match goal with |- context [Z.compare ?a ?b] => destruct (Z.compare_spec a b); cbn [CompOpp] in *; subst; try discriminate; try reflexivity; try lia end.
Qed.
Lemma fle_refl x : x <> S754_nan -> fle x x = true.
Proof. intros H. apply fle_total; [exact H|exact H|]. destruct x as [s|s| |s m e]; unfold flt, SFltb, SFcompare; try reflexivity; destruct s; try reflexivity; rewrite ?pcomp, !Z.compare_refl; reflexivity. Qed.

(** ** the worst case *)
Definition fl (h : heap) (a : nat) : sf := e_flux (deref h a).
Definition num (h : heap) (p : phase) : Prop := match p_env p with Some a => fl h a <> S754_nan | None => True end.
(** [a] is the first of the largest among the phases whose flux is a number *)
Definition best_of (h : heap) (ps : list phase) (a : nat) : Prop :=
  exists pre p post, ps = pre ++ p :: post /\ p_env p = Some a /\ fl h a <> S754_nan /\
   (forall q b, In q ps -> p_env q = Some b -> fl h b <> S754_nan -> fle (fl h b) (fl h a) = true) /\
   (forall q b, In q pre -> p_env q = Some b -> fl h b <> S754_nan -> flt (fl h b) (fl h a) = true).
Lemma best_step h ps a q : best_of h ps a ->
  match (if phase_less h (Some a) (p_env q) then p_env q else Some a) with Some b => best_of h (ps ++ [q]) b | None => False end.
Proof.
  intros (pre & p & post & EQ & Ea & Na & Hall & Hpre). unfold phase_less. destruct (p_env q) as [y|] eqn:Eq.
  - fold (fl h a) (fl h y). destruct (flt (fl h a) (fl h y)) eqn:L.
    + destruct (flt_nn _ _ L) as (_ & Ny). exists ps, q, []. split; [reflexivity|]. split; [exact Eq|]. split; [exact Ny|]. split.
      * intros q' b Hin Eb Nb. apply in_app_or in Hin. destruct Hin as [Hin|[<-|[]]].
        -- apply flt_fle. eapply flt_trans; [|exact L]. exact (Hall _ _ Hin Eb Nb).
        -- rewrite Eq in Eb. injection Eb as <-. exact (fle_refl _ Ny).
      * intros q' b Hin Eb Nb. eapply flt_trans; [|exact L]. exact (Hall _ _ Hin Eb Nb).
    + exists pre, p, (post ++ [q]). split; [rewrite EQ, <- app_assoc; reflexivity|]. split; [exact Ea|]. split; [exact Na|]. split; [|exact Hpre].
      intros q' b Hin Eb Nb. apply in_app_or in Hin. destruct Hin as [Hin|[<-|[]]]; [exact (Hall _ _ Hin Eb Nb)|].
      rewrite Eq in Eb. injection Eb as <-. apply fle_total; assumption.
  - exists pre, p, (post ++ [q]). split; [rewrite EQ, <- app_assoc; reflexivity|]. split; [exact Ea|]. split; [exact Na|]. split; [|exact Hpre].
    intros q' b Hin Eb Nb. apply in_app_or in Hin. destruct Hin as [Hin|[<-|[]]]; [exact (Hall _ _ Hin Eb Nb)|congruence].
Qed.
Lemma best_loop h r : forall ps a, best_of h ps a -> exists b, max_loop h (Some a) r = Some b /\ best_of h (ps ++ r) b.
Proof.
  induction r as [|q r IH]; intros ps a B; cbn [max_loop fold_left].
  - exists a. rewrite app_nil_r. split; [reflexivity|exact B].
  - pose proof (best_step h ps a q B) as S1. destruct (if phase_less h (Some a) (p_env q) then p_env q else Some a) as [b|]; [|contradiction].
    destruct (IH _ _ S1) as (c & C1 & C2). exists c. rewrite <- app_assoc in C2. split; assumption.
Qed.
Lemma null_loop h nulls : (forall p, In p nulls -> p_env p = None) -> forall r, max_loop h None (nulls ++ r) = max_loop h None r.
Proof.
  intros H r. induction nulls as [|q n IH]; [reflexivity|]. cbn [app max_loop fold_left]. unfold phase_less at 1. rewrite (H q (or_introl eq_refl)). apply IH. intros p Hp. apply H. right. exact Hp.
Qed.
Definition worst (h : heap) (ps : list phase) : ptr := match ps with [] => None | p :: r => max_loop h (p_env p) r end.
Lemma worst_None h ps : worst h ps = max_loop h None ps.
Proof. destruct ps as [|p r]; [reflexivity|]. cbn [worst max_loop fold_left phase_less]. reflexivity. Qed.
Lemma worst_nulls h ps : (forall p, In p ps -> p_env p = None) -> worst h ps = None.
Proof. intros H. rewrite worst_None. rewrite <- (app_nil_r ps), null_loop by exact H. reflexivity. Qed.
Lemma worst_num h nulls p r a : (forall q, In q nulls -> p_env q = None) -> p_env p = Some a -> fl h a <> S754_nan ->
  exists b, worst h (nulls ++ p :: r) = Some b /\ best_of h (nulls ++ p :: r) b.
Proof.
  intros HN Ep Na. rewrite worst_None, null_loop by exact HN. cbn [max_loop fold_left phase_less]. rewrite Ep.
  replace (nulls ++ p :: r) with ((nulls ++ [p]) ++ r) by (rewrite <- app_assoc; reflexivity). apply best_loop.
  exists nulls, p, []. split; [reflexivity|]. split; [exact Ep|]. split; [exact Na|]. split.
  - intros q b Hin Eb Nb. apply in_app_or in Hin. destruct Hin as [Hin|[<-|[]]]; [rewrite (HN _ Hin) in Eb; discriminate|]. rewrite Ep in Eb. injection Eb as <-. exact (fle_refl _ Na).
  - intros q b Hin Eb. rewrite (HN _ Hin) in Eb. discriminate.
Qed.
Lemma worst_nan h nulls p r a : (forall q, In q nulls -> p_env q = None) -> p_env p = Some a -> fl h a = S754_nan -> worst h (nulls ++ p :: r) = Some a.
Proof.
  intros HN Ep Na. rewrite worst_None, null_loop by exact HN. cbn [max_loop fold_left phase_less]. rewrite Ep. clear Ep HN p.
  induction r as [|q r IH]; [reflexivity|]. cbn [max_loop fold_left].
  assert (phase_less h (Some a) (p_env q) = false) as L by (unfold phase_less; destruct (p_env q) as [y|]; [fold (fl h a); rewrite Na|]; reflexivity).
  rewrite L. exact IH.
Qed.
Lemma nulls_split ps : (forall p, In p ps -> p_env p = None) \/ exists nulls p r a, ps = nulls ++ p :: r /\ (forall q, In q nulls -> p_env q = None) /\ p_env p = Some a.
Proof.
  induction ps as [|q r IH]; [left; intros p []|]. destruct (p_env q) as [a|] eqn:Eq.
  - right. exists [], q, r, a. split; [reflexivity|]. split; [intros ? []|exact Eq].
  - destruct IH as [H|(n & p & r' & a & A & B & C)].
    + left. intros p [<-|Hp]; [exact Eq|exact (H _ Hp)].
    + right. exists (q :: n), p, r', a. split; [rewrite A; reflexivity|]. split; [|exact C]. intros z [<-|Hz]; [exact Eq|exact (B _ Hz)].
Qed.

(** ** standard missions *)
Lemma fold_add ps : forall m, fold_left addPhase ps m = mkMission (m_name m) (m_target m) (m_phases m ++ ps).
Proof.
  induction ps as [|p r IH]; intros m; cbn [fold_left].
  - rewrite app_nil_r. destruct m; reflexivity.
  - rewrite IH. unfold addPhase. cbn [m_name m_target m_phases]. rewrite <- app_assoc. reflexivity.
Qed.
Definition addr (h : heap) (k : nat) : ptr := Some (List.length h + k)%nat.
Lemma std_eq h t name : createStandardMission h t name =
  (h ++ fst (configuration t), mkMission (if String.eqb name "" then getDefaultMissionName t else name) t (snd (configuration t) (addr h))).
Proof. unfold createStandardMission. destruct (configuration t) as (es, ps) eqn:C. rewrite fold_add. reflexivity. Qed.
Lemma deref_new h es k : deref (h ++ es) (List.length h + k) = nth k es blank.
Proof. unfold deref. rewrite app_nth2 by lia. f_equal. lia. Qed.
Lemma deref_old h es a : (a < List.length h)%nat -> deref (h ++ es) a = deref h a.
Proof. intros H. unfold deref. apply app_nth1. exact H. Qed.
Lemma deref_store h a e b : (a < List.length h)%nat -> deref (store h a e) b = if Nat.eqb b a then e else deref h b.
Proof.
  revert a b. induction h as [|x r IH]; intros a b H; cbn [List.length] in H; [lia|]. unfold deref, store in *. destruct a as [|a], b as [|b]; cbn [set_nth nth Nat.eqb]; try reflexivity. apply IH. lia.
Qed.
Lemma store_len h a e : List.length (store h a e) = List.length h.
Proof. apply set_nth_len. Qed.

(** ** settings of one environment *)
Lemma changes_ok cs : forall e, let e' := fold_left changed cs e in
  (forall k, e_props e' k = last_set k cs (e_props e k)) /\ e_flux e' = last_flux cs (e_flux e) /\ e_cross e' = last_cross cs (e_cross e) /\ e_type e' = e_type e /\ e_name e' = e_name e.
Proof.
  induction cs as [|c r IH]; intros e; cbn [fold_left]; [repeat split|]. destruct (IH (changed e c)) as (A & B & C & D & F). destruct c; cbn [last_set last_flux last_cross]; (split; [intros k0; rewrite A|split; [rewrite B|split; [rewrite C|split; [rewrite D|rewrite F]]]]); try reflexivity.
  cbn [changed setProperty e_props]. rewrite (String.eqb_sym k k0). destruct (String.eqb k0 k); reflexivity.
Qed.
