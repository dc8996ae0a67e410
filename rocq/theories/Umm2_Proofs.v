(** The invariant of the memory manager and the effects of its calls. *)
From Coq Require Import List NArith Bool Lia Permutation.
Import ListNotations.
From Verif Require Import Outcome Umm_Model Umm_Spec Umm_Proofs.
Local Open Scope N_scope.

Lemma w64_lt x : w64 x < 2 ^ 64. Proof. apply N.mod_lt. discriminate. Qed.
Lemma w64_small x : x < 2 ^ 64 -> w64 x = x. Proof. apply N.mod_small. Qed.
Lemma w64_idem x y : w64 (w64 x + y) = w64 (x + y). Proof. unfold w64. rewrite N.add_mod_idemp_l by discriminate. reflexivity. Qed.
Lemma w64_idem_r x y : w64 (x + w64 y) = w64 (x + y). Proof. unfold w64. rewrite N.add_mod_idemp_r by discriminate. reflexivity. Qed.
Lemma w64_full x : w64 (x + 2 ^ 64) = w64 x. Proof. unfold w64. replace (x + 2 ^ 64) with (x + 1 * 2 ^ 64) by lia. apply N.mod_add. discriminate. Qed.

(** ** blocks *)
Definition apart (b c : N * N) : Prop := fst b + N.max 1 (snd b) <= fst c \/ fst c + N.max 1 (snd c) <= fst b.
Fixpoint spread (bs : list (N * N)) : Prop := match bs with [] => True | b :: r => Forall (apart b) r /\ spread r end.
Lemma apart_sym b c : apart b c -> apart c b. Proof. unfold apart. tauto. Qed.
Lemma spread_in bs : spread bs -> forall b c, In b bs -> In c bs -> fst b = fst c -> b = c.
Proof.
  induction bs as [|x bs IH]; [intros _ ? ? []|]. cbn [spread]. intros [H1 H2] b c [B|B] [C|C] E; [congruence| | |eapply IH; eauto].
  - subst x. rewrite Forall_forall in H1. specialize (H1 c C). unfold apart in H1. lia.
  - subst x. rewrite Forall_forall in H1. specialize (H1 b B). unfold apart in H1. lia.
Qed.
Lemma spread_apart bs : spread bs -> forall b c, In b bs -> In c bs -> fst b <> fst c -> apart b c.
Proof.
  induction bs as [|x bs IH]; [intros _ ? ? []|]. cbn [spread]. intros [H1 H2] b c [B|B] [C|C] E; [subst; congruence| | |eapply IH; eauto].
  - subst x. rewrite Forall_forall in H1. apply H1, C.
  - subst x. rewrite Forall_forall in H1. apply apart_sym, H1, B.
Qed.
Lemma spread_filter f bs : spread bs -> spread (filter f bs).
Proof.
  induction bs as [|x bs IH]; [auto|]. cbn [spread filter]. intros [H1 H2]. destruct (f x); [|auto]. split; [|auto]. rewrite Forall_forall in *. intros y Hy. apply filter_In in Hy. apply H1, Hy.
Qed.
Record UI (s : umm) : Prop := {
  ui_keys : NoDup (map fst (allocs s));
  ui_same : forall p, In p (map fst (allocs s)) <-> In p (map fst (blocks s));
  ui_room : forall p z, In (p, z) (blocks s) -> 0 < p /\ p + N.max 1 z < 2 ^ 64;
  ui_spread : spread (blocks s);
  ui_info : forall p i, In (p, i) (allocs s) -> orig i = p /\ isize i < 2 ^ 64 /\ (user i = p \/ user i = p + 8)
}.
Lemma UI0 m : UI (umm0 m).
Proof. constructor; cbn [umm0 allocs blocks map spread]; [constructor|tauto|intros ? ? []|exact I|intros ? ? []]. Qed.
Lemma granted_fresh s p real : UI s -> granted (blocks s) p real -> find p (allocs s) = None /\ ~ In p (map fst (blocks s)) /\ p <> 0.
Proof.
  intros U (G1 & G2 & G3). assert (F : ~ In p (map fst (blocks s))).
  { intros C. apply in_map_iff in C. destruct C as ([q z] & E & C). cbn in E. subst q. rewrite Forall_forall in G3. specialize (G3 _ C). cbn [fst snd] in G3. lia. }
  split; [|split; [exact F|lia]]. apply find_none. rewrite (ui_same _ U). exact F.
Qed.

(** ** setting up protection *)
Definition setp (i : info) : info := mkInfo (user i) (orig i) (isize i) (itype i) (is_array i) true.
Lemma setup_eff cv s p n l b s' : p <> 0 -> setupMemoryProtection cv s p n l = Ret (b, s') ->
  b = true /\ blocks s' = blocks s /\ st s' = st s /\ deflt s' = deflt s /\ callbacks s' = callbacks s /\ next_id s' = next_id s /\
  (allocs s' = allocs s \/ (l = CRC /\ allocs s' = upd p setp (allocs s))) /\
  (forall x, (forall z, In (p, z) (blocks s) -> x < p \/ p + z <= x) -> mem s' x = mem s x).
Proof.
  intros Hp H. unfold setupMemoryProtection in H. destruct (N.eqb_spec p 0) as [C|_]; [congruence|].
  destruct l.
  - injection H as <- <-. repeat split; auto.
  - destruct (access (blocks s) p 0 8) eqn:A1; [|discriminate]. destruct (access (blocks s) p (w64 (n + 2 ^ 64 - 8)) 8) eqn:A2; [|discriminate]. injection H as <- <-. repeat split; auto.
    intros x Hx. apply access_spec in A1. destruct A1 as [A1|(z & A1 & L1)]; [discriminate|]. apply access_spec in A2. destruct A2 as [A2|(z2 & A2 & L2)]; [discriminate|]. cbn [set_mem mem].
    pose proof (Hx _ A1) as X1. pose proof (Hx _ A2) as X2. set (e := w64 _) in *. clearbody e. rewrite get_put by lia. apply get_put. lia.
  - destruct (access (blocks s) p 0 n); [|discriminate]. injection H as <- <-. repeat split; auto.
  - destruct (access (blocks s) p 0 n) eqn:A1; [|discriminate]. destruct (access (blocks s) p n (w64 (n + 7) / 8)) eqn:A2; [|discriminate]. cbn [andb] in H. injection H as <- <-. repeat split; auto.
    intros x Hx. cbn [set_mem mem]. apply fill_out. apply access_spec in A2. destruct A2 as [A2|(z & A2 & L2)]; [rewrite A2; lia|]. apply Hx in A2. lia.
  - remember (2 * n) as d eqn:D. destruct (access (blocks s) p 0 n) eqn:A1; [|discriminate]. destruct (access (blocks s) p n n) eqn:A2; [|discriminate]. destruct (access (blocks s) p d n) eqn:A3; [|discriminate]. cbn [andb] in H. injection H as <- <-. repeat split; auto.
    intros x Hx. cbn [set_mem mem]. apply access_spec in A2, A3. assert (Q : x < p \/ p + 3 * n <= x) . { destruct A3 as [A3|(z & A3 & L3)]. lia. specialize (Hx _ A3). lia. } rewrite fill_out by lia. apply fill_out. lia.
Qed.
(** a granted allocation *)
Definition start (l : plevel) (p : N) : N := match l with CANARY => p + 8 | _ => p end.
Definition counted (t : stats) (n : N) : stats :=
  let c := w64 (cur_n t + 1) in let b := w64 (cur_b t + n) in
  mkStats c (N.max (peak_n t) c) (w64 (tot_alloc t + 1)) (tot_dealloc t) b (N.max (peak_b t) b) (prot_n t) (prot_b t) (detected t) (repaired t) (leaked t).
Lemma if_max a b : (if a <? b then b else a) = N.max a b.
Proof. destruct (N.ltb_spec a b); lia. Qed.
Lemma allocate_eff cv s n f l al sys junk r s' : UI s -> n < 2 ^ 64 -> answer_ok (blocks s) n f l al sys -> allocate cv s n f l al sys junk = Ret (r, s') ->
  (sys = None /\ r = 0 /\ s' = s) \/
  exists p real, sys = Some p /\ request n f l al = Ret real /\ granted (blocks s) p real /\ (aligned f = true -> p mod al = 0) /\ find p (allocs s) = None /\ r = start l p /\
    blocks s' = (p, real) :: blocks s /\ allocs s' = allocs s ++ [(p, mkInfo r p n None false false)] /\ st s' = counted (st s) n /\ deflt s' = deflt s /\ callbacks s' = callbacks s /\ next_id s' = next_id s /\
    (forall x, x < p \/ p + real <= x -> mem s' x = mem s x).
Proof.
  intros U Hn HA H. unfold allocate in H. apply obind_ret in H. destruct H as (real & HR & H). destruct sys as [p|]; [|left; destruct (nothrow f); [|discriminate]; injection H as <- <-; auto].
  right. destruct (HA real HR) as [G AL]. destruct (granted_fresh s p real U G) as (F & NB & P0). destruct (zero f && negb (access ((p, real) :: blocks s) p 0 (calculateProtectedSize n l))) eqn:Z; [discriminate|].
  set (m := if zero f then _ else _) in H. apply obind_ret in H. destruct H as ([b s1] & H1 & H).
  pose proof (setup_eff _ _ _ _ _ _ _ P0 H1) as (Eb & E1 & E2 & E3 & E4 & E5 & E6 & E7). cbn [blocks allocs st deflt callbacks next_id mem] in *.
  assert (A1 : allocs s1 = allocs s) by (destruct E6 as [E6|[_ E6]]; [exact E6|rewrite E6; apply upd_none, F]). clear E6 Eb. cbn [snd] in H. injection H as <- <-.
  assert (ER : match l with CANARY => w64 (p + 8) | _ => p end = start l p).
  { destruct l; try reflexivity. cbn [start]. apply w64_small. unfold setupMemoryProtection in H1. destruct (N.eqb_spec p 0); [congruence|]. destruct (access (blocks _) p 0 8) eqn:A; [|discriminate]. cbn [blocks] in A.
    apply access_head in A. destruct G as (_ & G & _). destruct A as [A|[A|(z & A & _)]]; [discriminate|lia|]. exfalso. apply NB. apply (in_map fst) in A. exact A. }
  rewrite ER. exists p, real. split; [reflexivity|]. split; [exact HR|]. split; [exact G|]. split; [exact AL|]. split; [exact F|]. split; [reflexivity|].
  cbn [trackAllocation set_allocs blocks allocs st deflt callbacks next_id mem]. rewrite A1, F, E1, E2, E3, E4, E5. split; [reflexivity|]. split.
  { clear -F. induction (allocs s) as [|[k i] l0 IH]; [cbn; rewrite N.eqb_refl; reflexivity|]. cbn [find] in F. cbn [app upd]. destruct (k =? p); [discriminate|]. rewrite IH by exact F. reflexivity. }
  split; [unfold counted; cbn zeta; rewrite !if_max; reflexivity|]. split; [reflexivity|]. split; [reflexivity|]. split; [reflexivity|].
  intros x Hx. rewrite E7.
  - unfold m. destruct (zero f); rewrite ?fill_out; try reflexivity; try exact Hx. cbn [andb] in Z. apply negb_false_iff in Z. apply access_head in Z. destruct Z as [Z|[Z|(z & Z & _)]]; [rewrite Z; lia|lia|]. exfalso. apply NB. apply (in_map fst) in Z. exact Z.
  - intros z [C|C]; [injection C as <-; exact Hx|]. exfalso. apply NB. apply (in_map fst) in C. exact C.
Qed.
