From Coq Require Import List NArith ZArith Bool Lia SpecFloat.
Import ListNotations.
From Verif Require Import Outcome Words Floats Bits_Model PNN_Model Train_Model Tester_Model Tester_Spec Search_Model Search_Spec.
Local Open Scope N_scope.
Local Open Scope outcome_scope.

(** ** lists *)
Lemma NoDup_app {A} (a b : list A) : NoDup a -> NoDup b -> (forall x, In x a -> In x b -> False) -> NoDup (a ++ b).
Proof.
  intros NA NB D. induction NA as [|x a NI NA IH]; cbn [app]; [exact NB|]. constructor.
  - rewrite in_app_iff. intros [H|H]; [exact (NI H)|exact (D x (or_introl eq_refl) H)].
  - apply IH. intros y Y1 Y2. exact (D y (or_intror Y1) Y2).
Qed.
Lemma NoDup_flat_map {A B} (f : A -> list B) l : NoDup l -> (forall x, In x l -> NoDup (f x)) -> (forall x y z, In x l -> In y l -> In z (f x) -> In z (f y) -> x = y) -> NoDup (flat_map f l).
Proof.
  intros N F D. induction N as [|x l NI N IH]; cbn [flat_map]; [constructor|]. apply NoDup_app.
  - apply F. left. reflexivity.
  - apply IH; [intros y Y; apply F; right; exact Y|]. intros y z w Hy Hz. apply D; right; assumption.
  - intros z Z1 Z2. apply in_flat_map in Z2. destruct Z2 as (y & Y & Z2). assert (x = y) by (apply (D x y z); [left; reflexivity|right; exact Y|exact Z1|exact Z2]). subst y. exact (NI Y).
Qed.
Lemma length_flat_map_const {A B} (f : A -> list B) l k : (forall x, In x l -> length (f x) = k) -> length (flat_map f l) = (length l * k)%nat.
Proof. induction l as [|x l IH]; cbn [flat_map length]; [reflexivity|]. intros H. rewrite app_length, (H x (or_introl eq_refl)), IH; [lia|]. intros y Y. apply H. right. exact Y. Qed.

(** ** layer patterns *)
Lemma combinations_in ws k : forall cur x, In x (combinations ws cur k) <-> exists h, x = cur ++ h /\ length h = k /\ Forall (fun w => In w ws) h.
Proof.
  induction k as [|k IH]; intros cur x; cbn [combinations].
  - split; [intros [<-|[]]; exists []; rewrite app_nil_r; repeat split; constructor|]. intros (h & -> & L & _). destruct h; [|discriminate L]. rewrite app_nil_r. left. reflexivity.
  - rewrite in_flat_map. split.
    + intros (w & W & H). apply IH in H. destruct H as (h & -> & L & F). exists (w :: h). rewrite <- app_assoc. cbn [app length]. split; [reflexivity|]. split; [lia|]. constructor; assumption.
    + intros (h & -> & L & F). destruct h as [|w h]; [discriminate L|]. inversion F; subst. exists w. split; [assumption|]. apply IH. exists h. rewrite <- app_assoc. split; [reflexivity|]. split; [injection L as L; exact L|assumption].
Qed.
Lemma combinations_nodup ws k : NoDup ws -> forall cur, NoDup (combinations ws cur k).
Proof.
  intros N. induction k as [|k IH]; intros cur; cbn [combinations]; [repeat constructor; intros []|].
  apply NoDup_flat_map; [exact N|intros; apply IH|]. intros w v z _ _ Z1 Z2. apply combinations_in in Z1. apply combinations_in in Z2. destruct Z1 as (h1 & -> & _), Z2 as (h2 & E & _). rewrite <- !app_assoc in E. apply app_inv_head in E. injection E as E _. exact E.
Qed.
Lemma combinations_length ws k : forall cur, length (combinations ws cur k) = (length ws ^ k)%nat.
Proof. induction k as [|k IH]; intros cur; cbn [combinations]; [reflexivity|]. rewrite (length_flat_map_const _ _ (length ws ^ k)%nat); [|intros; apply IH]. cbn. lia. Qed.
(** the hidden layers the grid considers *)
Definition hidden_ok (s : srch) (hidden : list N) : Prop :=
  Forall (fun w => In w (s_widths s)) hidden /\ (s_fixed s = O -> (exists w, hidden = [w]) \/ (exists w1 w2, hidden = [w1; w2] /\ w1 <> w2)) /\ (s_fixed s <> O -> length hidden = s_fixed s).
Lemma pairs_in s p : In p (flat_map (fun w1 => flat_map (fun w2 => if w1 =? w2 then [] else [[s_in s; w1; w2; s_out s]]) (s_widths s)) (s_widths s)) <->
  exists w1 w2, In w1 (s_widths s) /\ In w2 (s_widths s) /\ w1 <> w2 /\ p = [s_in s; w1; w2; s_out s].
Proof.
  rewrite in_flat_map. split.
  - intros (w1 & W1 & H). apply in_flat_map in H. destruct H as (w2 & W2 & H). destruct (N.eqb_spec w1 w2) as [E|E]; [destruct H|]. destruct H as [<-|[]]. exists w1, w2. auto.
  - intros (w1 & w2 & W1 & W2 & NE & ->). exists w1. split; [exact W1|]. apply in_flat_map. exists w2. split; [exact W2|]. destruct (N.eqb_spec w1 w2) as [E|E]; [contradiction|left; reflexivity].
Qed.
Lemma patterns_in s p : In p (patterns s) <-> exists hidden, p = [s_in s] ++ hidden ++ [s_out s] /\ hidden_ok s hidden.
Proof.
  unfold patterns, hidden_ok. destruct (s_fixed s) as [|k] eqn:K.
  - rewrite in_app_iff, in_map_iff, pairs_in. split.
    + intros [(w & <- & W)|(w1 & w2 & W1 & W2 & NE & ->)].
      * exists [w]. split; [reflexivity|]. split; [repeat constructor; exact W|]. split; [intros _; left; exists w; reflexivity|congruence].
      * exists [w1; w2]. split; [reflexivity|]. split; [repeat constructor; assumption|]. split; [intros _; right; exists w1, w2; auto|congruence].
    + intros (h & -> & F & H & _). destruct (H eq_refl) as [(w & ->)|(w1 & w2 & -> & NE)].
      * left. exists w. split; [reflexivity|]. inversion F; assumption.
      * right. inversion F as [|? ? A B]; subst. inversion B as [|? ? C D]; subst. exists w1, w2. auto.
  - rewrite in_map_iff. split.
    + intros (h & <- & H). apply combinations_in in H. destruct H as (h' & -> & L & F). exists h'. split; [reflexivity|]. split; [exact F|]. split; [discriminate|intros _; exact L].
    + intros (h & -> & F & _ & L). exists h. split; [reflexivity|]. apply combinations_in. exists h. split; [reflexivity|]. split; [apply L; discriminate|exact F].
Qed.
Lemma wrap_inj (i o : N) (a b : list N) : [i] ++ a ++ [o] = [i] ++ b ++ [o] -> a = b.
Proof. cbn [app]. intros E. injection E as E. apply app_inv_tail in E. exact E. Qed.
Lemma NoDup_map_inj {A B} (f : A -> B) l : (forall x y, f x = f y -> x = y) -> NoDup l -> NoDup (map f l).
Proof. intros I N. induction N as [|x l NI N IH]; cbn [map]; constructor; [|exact IH]. intros H. apply in_map_iff in H. destruct H as (y & E & Y). apply I in E. subst y. exact (NI Y). Qed.
Lemma patterns_nodup s : NoDup (s_widths s) -> NoDup (patterns s).
Proof.
  intros N. unfold patterns. destruct (s_fixed s) as [|k].
  - apply NoDup_app.
    + apply NoDup_map_inj; [|exact N]. intros x y E. injection E; auto.
    + apply NoDup_flat_map; [exact N| |].
      * intros w1 _. apply NoDup_flat_map; [exact N| |].
        -- intros w2 _. destruct (w1 =? w2); repeat constructor. intros [].
        -- intros x y z _ _ X Y. destruct (w1 =? x); [destruct X|]. destruct X as [<-|[]]. destruct (w1 =? y); [destruct Y|]. destruct Y as [E|[]]. injection E; auto.
      * intros x y z _ _ X Y. apply in_flat_map in X. apply in_flat_map in Y. destruct X as (x2 & _ & X), Y as (y2 & _ & Y). destruct (x =? x2); [destruct X|]. destruct X as [<-|[]]. destruct (y =? y2); [destruct Y|]. destruct Y as [E|[]]. injection E; auto.
    + intros p P1 P2. apply in_map_iff in P1. destruct P1 as (w & <- & _). apply pairs_in in P2. destruct P2 as (w1 & w2 & _ & _ & _ & E). discriminate E.
  - apply NoDup_map_inj; [intros x y; apply wrap_inj|]. apply combinations_nodup. exact N.
Qed.
Lemma count_others (w : N) l : NoDup l -> In w l -> S (length (flat_map (fun v => if w =? v then [] else [v]) l)) = length l.
Proof.
  intros N. induction N as [|x l NI N IH]; cbn [flat_map length]; [intros []|]. intros H. destruct (N.eqb_spec w x) as [->|NE].
  - cbn [app]. f_equal. clear IH N H. induction l as [|y l IH]; cbn [flat_map length]; [reflexivity|]. destruct (N.eqb_spec x y) as [->|]; [exfalso; apply NI; left; reflexivity|]. cbn [app length]. f_equal. apply IH. intros H. apply NI. right. exact H.
  - destruct H as [E|H]; [congruence|]. cbn [app length]. rewrite (IH H). reflexivity.
Qed.
Lemma count_pairs (s : srch) (w : N) l : NoDup l -> In w l -> length (flat_map (fun v => if w =? v then [] else [[s_in s; w; v; s_out s]]) l) = (length l - 1)%nat.
Proof.
  intros N H. rewrite <- (count_others w l N H). cbn. rewrite Nat.sub_0_r. clear. induction l as [|y l IH]; cbn [flat_map]; [reflexivity|]. rewrite !app_length, IH. destruct (w =? y); reflexivity.
Qed.

(** ** the grid *)
Lemma grid_in s c : In c (generateAllConfigs s) <-> grid_member s c.
Proof.
  unfold generateAllConfigs, grid_member, built_from. rewrite in_flat_map. split.
  - intros (p & P & H). apply in_flat_map in H. destruct H as (d & D & H). apply in_flat_map in H. destruct H as (l & L & H).
    apply patterns_in in P. destruct P as (h & -> & F & H0 & H1). exists h.
    destruct H as [<-|H]; [cbn [n_sizes n_drop n_prot n_resid]; repeat split; try assumption; discriminate|].
    destruct (s_resid s) eqn:R; cbn [andb] in H; [|destruct H]. destruct (Nat.leb_spec 4 (length ([s_in s] ++ h ++ [s_out s]))) as [LE|LE]; [|destruct H]. destruct H as [<-|[]].
    cbn [n_sizes n_drop n_prot n_resid]. repeat split; try assumption. rewrite !app_length in LE. cbn [length] in LE. lia.
  - intros (h & (E & F & D & L) & H0 & H1 & H2). exists ([s_in s] ++ h ++ [s_out s]). split; [apply patterns_in; exists h; split; [reflexivity|]; split; [exact F|]; split; assumption|].
    apply in_flat_map. exists (n_drop c). split; [exact D|]. apply in_flat_map. exists (n_prot c). split; [exact L|].
    destruct c as [sz dr re pr]. cbn [n_sizes n_drop n_prot n_resid] in *. subst sz. destruct re; [|left; reflexivity]. right. destruct (H2 eq_refl) as [R LE]. rewrite R. cbn [andb].
    destruct (Nat.leb_spec 4 (length ([s_in s] ++ h ++ [s_out s]))) as [_|LT]; [left; reflexivity|]. rewrite !app_length in LT. cbn [length] in LT. lia.
Qed.
Lemma grid_nodup s : NoDup (s_widths s) -> NoDup (s_drops s) -> NoDup (s_levels s) -> NoDup (generateAllConfigs s).
Proof.
  intros NW ND NL. unfold generateAllConfigs.
  assert (IN : forall c p d l, In c (mkNC p d false l :: (if s_resid s && Nat.leb 4 (length p) then [mkNC p d true l] else [])) -> n_sizes c = p /\ n_drop c = d /\ n_prot c = l).
  { intros c p d l [<-|H]; [auto|]. destruct (s_resid s && Nat.leb 4 (length p))%bool; [|destruct H]. destruct H as [<-|[]]. auto. }
  apply NoDup_flat_map; [apply patterns_nodup; exact NW| |].
  - intros p _. apply NoDup_flat_map; [exact ND| |].
    + intros d _. apply NoDup_flat_map; [exact NL| |].
      * intros l _. destruct (s_resid s && Nat.leb 4 (length p))%bool; repeat constructor; intros []; [discriminate H|destruct H].
      * intros l l' c _ _ A B. apply IN in A. apply IN in B. destruct A as (_ & _ & <-), B as (_ & _ & <-). reflexivity.
    + intros d d' c _ _ A B. apply in_flat_map in A. apply in_flat_map in B. destruct A as (l & _ & A), B as (l' & _ & B). apply IN in A. apply IN in B. destruct A as (_ & <- & _), B as (_ & <- & _). reflexivity.
  - intros p p' c _ _ A B. apply in_flat_map in A. apply in_flat_map in B. destruct A as (d & _ & A), B as (d' & _ & B). apply in_flat_map in A. apply in_flat_map in B. destruct A as (l & _ & A), B as (l' & _ & B). apply IN in A. apply IN in B. destruct A as (<- & _), B as (<- & _). reflexivity.
Qed.
Definition per_pattern (s : srch) (p : list N) : nat := length (s_drops s) * (length (s_levels s) * (if s_resid s && Nat.leb 4 (length p) then 2 else 1)).
Lemma per_pattern_ok s p : length (flat_map (fun d => flat_map (fun l =>
    mkNC p d false l :: (if s_resid s && Nat.leb 4 (length p) then [mkNC p d true l] else [])) (s_levels s)) (s_drops s)) = per_pattern s p.
Proof. unfold per_pattern. apply length_flat_map_const. intros d _. apply length_flat_map_const. intros l _. destruct (s_resid s && Nat.leb 4 (length p))%bool; reflexivity. Qed.
Lemma flat_map_app' {A B} (f : A -> list B) l1 l2 : flat_map f (l1 ++ l2) = flat_map f l1 ++ flat_map f l2.
Proof. induction l1; cbn; [reflexivity|]. rewrite IHl1, app_assoc. reflexivity. Qed.
Lemma grid_count_free s : s_fixed s = O -> NoDup (s_widths s) -> let n := length (s_widths s) in
  length (generateAllConfigs s) = (length (s_drops s) * length (s_levels s) * (n + n * (n - 1) * (if s_resid s then 2 else 1)))%nat.
Proof.
  intros F N n. unfold generateAllConfigs, patterns. rewrite F, flat_map_app', app_length.
  rewrite (length_flat_map_const _ _ (length (s_drops s) * length (s_levels s))%nat).
  2:{ intros p P. rewrite per_pattern_ok. unfold per_pattern. apply in_map_iff in P. destruct P as (w & <- & _). cbn [length Nat.leb]. rewrite andb_false_r. lia. }
  rewrite (length_flat_map_const _ _ (length (s_drops s) * (length (s_levels s) * (if s_resid s then 2 else 1)))%nat).
  2:{ intros p P. rewrite per_pattern_ok. unfold per_pattern. apply pairs_in in P. destruct P as (w1 & w2 & _ & _ & _ & ->). cbn [length Nat.leb]. rewrite andb_true_r. reflexivity. }
  rewrite map_length. rewrite (length_flat_map_const _ (s_widths s) (n - 1)%nat). 2:{ intros w W. apply count_pairs; assumption. }
  fold n. destruct (s_resid s); lia.
Qed.
Lemma grid_count_fixed s : s_fixed s <> O ->
  length (generateAllConfigs s) = (length (s_drops s) * length (s_levels s) * length (s_widths s) ^ s_fixed s * (if s_resid s && Nat.leb 2 (s_fixed s) then 2 else 1))%nat.
Proof.
  intros F. unfold generateAllConfigs, patterns. destruct (s_fixed s) as [|k] eqn:K; [congruence|].
  rewrite (length_flat_map_const _ _ (length (s_drops s) * (length (s_levels s) * (if s_resid s && Nat.leb 2 (S k) then 2 else 1)))%nat).
  - rewrite map_length, combinations_length. lia.
  - intros p P. rewrite per_pattern_ok. unfold per_pattern. apply in_map_iff in P. destruct P as (h & <- & H). apply combinations_in in H. destruct H as (h' & -> & L & _). replace (Nat.leb 4 (length ([s_in s] ++ ([] ++ h') ++ [s_out s]))) with (Nat.leb 2 (S k)); [reflexivity|].
    rewrite !app_length, <- L. cbn [length]. destruct (Nat.leb_spec 2 (length h')), (Nat.leb_spec 4 (1 + (0 + length h' + 1))); try reflexivity; lia.
Qed.

(** ** random configurations *)
Section Draws.
Variables (ints : nat -> N) (reals : nat -> sf).
Lemma choose_in {A} (l : list A) pos x : choose ints l pos = Ret x -> In (fst x) l /\ snd x = S pos.
Proof. unfold choose. destruct (nth_error l _) eqn:E; [|discriminate]. intros H. injection H as <-. split; [exact (nth_error_In _ _ E)|reflexivity]. Qed.
Lemma choose_defined {A} (l : list A) pos : l <> [] -> exists x, choose ints l pos = Ret (x, S pos).
Proof.
  intros NE. unfold choose. destruct (nth_error l _) as [x|] eqn:E; [exists x; reflexivity|]. exfalso. apply nth_error_None in E.
  assert (0 < N.of_nat (length l)). { destruct l; [contradiction|]. cbn [length]. lia. }
  pose proof (N.mod_lt (ints pos) (N.of_nat (length l))). lia.
Qed.
Lemma choose_empty {A} pos : choose ints (@nil A) pos = UB UB_array_index.
Proof. unfold choose. destruct (N.to_nat _); reflexivity. Qed.
Lemma choose_many_in l k : forall pos x, choose_many ints l k pos = Ret x -> Forall (fun w => In w l) (fst x) /\ length (fst x) = k /\ snd x = (pos + k)%nat.
Proof.
  induction k as [|k IH]; intros pos x; cbn [choose_many]; [intros E; injection E as <-; repeat split; [constructor|cbn; lia]|].
  destruct (choose ints l pos) as [y| | |] eqn:C; cbn [obind]; try discriminate. destruct (choose_in _ _ _ C) as [I P].
  destruct (choose_many ints l k (snd y)) as [z| | |] eqn:M; cbn [obind]; try discriminate. intros E. injection E as <-. destruct (IH _ _ M) as (F & L & Q). cbn [fst snd length]. split; [constructor; assumption|]. split; [lia|]. rewrite Q, P. lia.
Qed.
Lemma choose_many_defined l k : l <> [] -> forall pos, exists h, choose_many ints l k pos = Ret h.
Proof.
  intros NE. induction k as [|k IH]; intros pos; cbn [choose_many]; [eauto|]. destruct (choose_defined l pos NE) as [x ->]. cbn [obind snd]. destruct (IH (S pos)) as [h ->]. cbn [obind]. eauto.
Qed.
Lemma random_valid s pos g : random_config ints s pos = Ret g -> random_member s (fst g).
Proof.
  unfold random_config. destruct (match s_fixed s with O => _ | S _ => _ end) as [k p] eqn:K.
  assert (KK : (s_fixed s = O -> (1 <= k <= 3)%nat) /\ (s_fixed s <> O -> k = s_fixed s)).
  { pose proof (N.mod_lt (ints pos) 3 ltac:(lia)) as M. remember (ints pos mod 3) as m eqn:EM. clear EM. destruct (s_fixed s); injection K as <- <-; [|split; congruence]. split; [|congruence]. intros _. lia. }
  clear K. destruct (choose_many ints (s_widths s) k p) as [h| | |] eqn:H; cbn [obind]; try discriminate. destruct (choose_many_in _ _ _ _ H) as (F & L & _).
  destruct (choose ints (s_drops s) (snd h)) as [d| | |] eqn:D; cbn [obind]; try discriminate. apply choose_in in D. destruct D as [D _].
  destruct (if s_resid s then _ else _) as [b q] eqn:B. destruct (choose ints (s_levels s) q) as [l| | |] eqn:LV; cbn [obind]; try discriminate. apply choose_in in LV. destruct LV as [LV _].
  intros E. injection E as <-. exists (fst h). cbn [fst]. split; [repeat split; assumption|]. rewrite L. split; [apply KK|]. split; [apply KK|]. cbn [n_resid]. intros ->. destruct (s_resid s); [reflexivity|discriminate B].
Qed.
Lemma random_defined s pos : s_widths s <> [] -> s_drops s <> [] -> s_levels s <> [] -> exists g, random_config ints s pos = Ret g.
Proof.
  intros W D L. unfold random_config. destruct (match s_fixed s with O => _ | S _ => _ end) as [k p]. destruct (choose_many_defined _ k W p) as [h ->]. cbn [obind].
  destruct (choose_defined _ (snd h) D) as [d ->]. cbn [obind fst snd]. destruct (if s_resid s then _ else _) as [b q]. destruct (choose_defined _ q L) as [l ->]. cbn [obind]. eauto.
Qed.
Lemma set_nth_length l : forall i x, length (set_nth l i x) = length l.
Proof. induction l as [|y l IH]; intros [|i] x; cbn [set_nth length]; auto. Qed.
Lemma set_nth_inner h : forall i x o, (i < length h)%nat -> set_nth (h ++ [o]) i x = set_nth h i x ++ [o].
Proof. induction h as [|y h IH]; intros [|i] x o L; cbn [set_nth app length] in *; try lia; [reflexivity|]. f_equal. apply IH. lia. Qed.
Lemma set_nth_Forall (P : N -> Prop) h : forall i x, Forall P h -> P x -> Forall P (set_nth h i x).
Proof. induction h as [|y h IH]; intros [|i] x F X; cbn [set_nth]; [constructor|constructor|inversion F; subst; constructor; assumption|]. inversion F; subst. constructor; [assumption|]. apply IH; assumption. Qed.
Lemma mutate_valid s c rate pos m : random_member s c -> mutate_config ints reals s c rate pos = Ret m -> random_member s (fst m).
Proof.
  intros (h & (E & F & D & L) & H0 & H1 & H2). unfold mutate_config.
  destruct (if flt (reals pos) rate then _ else _) as [a| | |] eqn:A; cbn [obind]; try discriminate.
  assert (SZ : exists h', fst a = [s_in s] ++ h' ++ [s_out s] /\ Forall (fun w => In w (s_widths s)) h' /\ length h' = length h).
  { destruct (flt (reals pos) rate); [|injection A as <-; exists h; auto]. destruct (Nat.ltb_spec 2 (length (n_sizes c))) as [LT|GE]; [|injection A as <-; exists h; auto].
    destruct (choose ints (s_widths s) (S (S pos))) as [w| | |] eqn:W; cbn [obind] in A; try discriminate A. injection A as <-. apply choose_in in W. destruct W as [W _].
    assert (LH : length (n_sizes c) = (length h + 2)%nat) by (rewrite E, !app_length; cbn [length]; lia). rewrite LH in *.
    set (i := N.to_nat _). assert (LI : (i < length h)%nat). { pose proof (N.mod_lt (ints (S pos)) (N.of_nat (length h + 2 - 2))) as M. unfold i. lia. }
    exists (set_nth h i (fst w)). split; [|split; [apply set_nth_Forall; assumption|apply set_nth_length]]. cbn [fst]. rewrite E. cbn [app set_nth]. f_equal. apply set_nth_inner. exact LI. }
  clear A. destruct SZ as (h' & EH & FH & LH).
  destruct (if flt (reals (snd a)) rate then _ else _) as [d| | |] eqn:DD; cbn [obind]; try discriminate.
  assert (ID : In (fst d) (s_drops s)). { destruct (flt (reals (snd a)) rate); [apply choose_in in DD; apply DD|injection DD as <-; exact D]. } clear DD.
  destruct (if s_resid s then _ else _) as [b q] eqn:B.
  assert (RB : b = true -> s_resid s = true). { intros ->. destruct (s_resid s); [reflexivity|]. injection B as B _. apply H2. exact B. } clear B.
  destruct (if flt (reals q) rate then _ else _) as [l| | |] eqn:LL; cbn [obind]; try discriminate.
  assert (IL : In (fst l) (s_levels s)). { destruct (flt (reals q) rate); [apply choose_in in LL; apply LL|injection LL as <-; exact L]. } clear LL.
  intros EM. injection EM as <-. exists h'. cbn [fst]. split; [repeat split; assumption|]. rewrite LH. split; [exact H0|]. split; [exact H1|]. exact RB.
Qed.
Lemma mutate_defined s c rate pos : s_widths s <> [] -> s_drops s <> [] -> s_levels s <> [] -> exists m, mutate_config ints reals s c rate pos = Ret m.
Proof.
  intros W D L. unfold mutate_config.
  match goal with |- exists m, obind ?x _ = _ => assert (A : exists a, x = Ret a) end.
  { destruct (flt (reals pos) rate); [|eauto]. destruct (Nat.ltb 2 (length (n_sizes c))); [|eauto]. cbv zeta. destruct (choose_defined (s_widths s) (S (S pos)) W) as [w ->]. cbn [obind]. eauto. }
  destruct A as [a ->]. cbn [obind].
  match goal with |- exists m, obind ?x _ = _ => assert (B : exists d, x = Ret d) end.
  { destruct (flt (reals (snd a)) rate); [|eauto]. destruct (choose_defined (s_drops s) (S (snd a)) D) as [d ->]. eauto. }
  destruct B as [d ->]. cbn [obind]. destruct (if s_resid s then _ else _) as [b q].
  match goal with |- exists m, obind ?x _ = _ => assert (C : exists l, x = Ret l) end.
  { destruct (flt (reals q) rate); [|eauto]. destruct (choose_defined (s_levels s) (S q) L) as [l ->]. eauto. }
  destruct C as [l ->]. cbn [obind]. eauto.
Qed.
Lemma mix_valid (P : N -> Prop) a : forall b pos, length a = length b -> Forall P a -> Forall P b -> Forall P (fst (mix_layers ints a b pos)) /\ length (fst (mix_layers ints a b pos)) = length a.
Proof.
  induction a as [|x a IH]; intros [|y b] pos L FA FB; cbn [mix_layers fst length] in *; try discriminate L; [split; [constructor|reflexivity]|].
  inversion FA; subst. inversion FB; subst. destruct (IH b (S pos)) as [F LL]; [lia|assumption|assumption|]. split; [|lia]. constructor; [destruct (coin ints pos); assumption|exact F].
Qed.
Lemma inner_wrap i h o : inner ([i] ++ h ++ [o]) = h.
Proof. unfold inner. rewrite !app_length. cbn [app tl length]. replace (1 + (length h + 1) - 2)%nat with (length h) by lia. rewrite firstn_app, firstn_all, Nat.sub_diag. cbn. apply app_nil_r. Qed.
Lemma crossover_valid s a b pos : random_member s a -> random_member s b -> random_member s (fst (crossover ints s a b pos)).
Proof.
  intros (h & (E & F & D & L) & H0 & H1 & H2) (g & (E' & F' & D' & L') & G0 & G1 & G2). unfold crossover.
  destruct (if Nat.eqb _ _ then _ else _) as [sz q] eqn:SQ.
  assert (SZ : exists k, sz = [s_in s] ++ k ++ [s_out s] /\ Forall (fun w => In w (s_widths s)) k /\ (length k = length h \/ length k = length g)).
  { destruct (Nat.eqb_spec (length (n_sizes a)) (length (n_sizes b))) as [EL|_].
    - injection SQ as <- <-. rewrite E, E', !inner_wrap. rewrite E, E', !app_length in EL. destruct (mix_valid (fun w => In w (s_widths s)) h g pos) as [FM LM]; [lia|assumption|assumption|]. exists (fst (mix_layers ints h g pos)). auto.
    - injection SQ as <- <-. destruct (coin ints pos); [exists g|exists h]; auto. }
  destruct SZ as (k & -> & FK & LK). exists k. cbn [fst n_sizes n_drop n_resid n_prot]. split.
  - split; [reflexivity|]. split; [exact FK|]. cbn [n_drop n_prot]. split; [destruct (coin ints q); assumption|destruct (coin ints (S (S q))); assumption].
  - split; [intros Z; specialize (H0 Z); specialize (G0 Z); destruct LK as [->| ->]; assumption|]. split; [intros Z; specialize (H1 Z); specialize (G1 Z); destruct LK as [->| ->]; assumption|]. cbn [n_resid]. destruct (coin ints (S q)); assumption.
Qed.
End Draws.
(** every such configuration is a possible draw *)
Lemma choose_index {A} (l : list A) x : In x l -> exists j, forall ints pos, ints pos = j -> choose ints l pos = Ret (x, S pos).
Proof.
  intros H. apply In_nth_error in H. destruct H as [n E]. exists (N.of_nat n). intros ints pos EI. unfold choose. rewrite EI. assert (n < length l)%nat by (apply nth_error_Some; congruence). rewrite N.mod_small, Nat2N.id, E by lia. reflexivity.
Qed.
Lemma choose_many_index l h : Forall (fun w => In w l) h -> exists js, length js = length h /\ forall ints pos, (forall i j, nth_error js i = Some j -> ints (pos + i)%nat = j) -> choose_many ints l (length h) pos = Ret (h, (pos + length h)%nat).
Proof.
  induction h as [|x h IH]; intros F; [exists []; split; [reflexivity|]; intros; cbn; rewrite Nat.add_0_r; reflexivity|].
  inversion F as [|? ? X F']; subst. destruct (IH F') as (js & LJ & H). destruct (choose_index l x X) as [j J]. exists (j :: js). split; [cbn; lia|].
  intros ints pos S. cbn [choose_many length]. rewrite (J ints pos) by (rewrite <- (Nat.add_0_r pos); apply S; reflexivity). cbn [obind fst snd].
  rewrite (H ints (Datatypes.S pos)). - cbn [obind fst snd]. do 2 f_equal. lia. - intros i y Y. replace (Datatypes.S pos + i)%nat with (pos + Datatypes.S i)%nat by lia. apply S. exact Y.
Qed.
Lemma random_complete s c pos : random_member s c -> exists ints g, random_config ints s pos = Ret g /\ fst g = c.
Proof.
  intros (h & (E & F & D & L) & H0 & H1 & H2). destruct (choose_many_index _ _ F) as (js & LJ & HM). destruct (choose_index _ _ D) as [jd JD]. destruct (choose_index _ _ L) as [jl JL].
  set (tail := jd :: (if s_resid s then [(if n_resid c then 1 else 0); jl] else [jl])).
  set (all := match s_fixed s with O => N.of_nat (length h - 1) :: js ++ tail | S _ => js ++ tail end).
  set (ints := fun p => nth (p - pos) all 0). exists ints. unfold random_config.
  assert (K : exists q, (match s_fixed s with O => (S (N.to_nat (ints pos mod 3)), S pos) | S _ => (s_fixed s, pos) end) = (length h, q) /\
     (forall i j, nth_error js i = Some j -> ints (q + i)%nat = j) /\ (forall i j, nth_error tail i = Some j -> ints (q + length h + i)%nat = j)).
  { unfold ints, all. destruct (s_fixed s) as [|k] eqn:FX.
    - specialize (H0 eq_refl). exists (S pos). split.
      + rewrite Nat.sub_diag. cbn [nth]. rewrite N.mod_small by lia. rewrite Nat2N.id. f_equal. lia.
      + split; intros i j J.
        * replace (S pos + i - pos)%nat with (S i) by lia. cbn [nth]. apply nth_error_nth. rewrite nth_error_app1; [exact J|apply nth_error_Some; congruence].
        * replace (S pos + length h + i - pos)%nat with (S (length js + i)) by lia. cbn [nth]. rewrite app_nth2_plus. apply nth_error_nth. exact J.
    - exists pos. specialize (H1 ltac:(discriminate)). split; [rewrite H1; reflexivity|]. split; intros i j J.
      + replace (pos + i - pos)%nat with i by lia. apply nth_error_nth. rewrite nth_error_app1; [exact J|apply nth_error_Some; congruence].
      + replace (pos + length h + i - pos)%nat with (length js + i)%nat by lia. rewrite app_nth2_plus. apply nth_error_nth. exact J. }
  destruct K as (q & -> & HA & HB). rewrite (HM ints q HA). cbn [obind fst snd]. rewrite (JD ints (q + length h)%nat) by (rewrite <- (Nat.add_0_r (q + length h)); apply HB; reflexivity). cbn [obind fst snd].
  unfold tail in HB. destruct (s_resid s) eqn:R.
  - assert (C1 : ints (S (q + length h)) = if n_resid c then 1 else 0) by (replace (S (q + length h)) with (q + length h + 1)%nat by lia; apply HB; reflexivity).
    rewrite (JL ints (S (S (q + length h)))) by (replace (S (S (q + length h))) with (q + length h + 2)%nat by lia; apply HB; reflexivity). cbn [obind]. eexists. split; [reflexivity|]. cbn [fst]. unfold coin. rewrite C1, <- E. destruct c as [a1 a2 a3 a4]. cbn. destruct a3; reflexivity.
  - rewrite (JL ints (S (q + length h))) by (replace (S (q + length h)) with (q + length h + 1)%nat by lia; apply HB; reflexivity). cbn [obind]. eexists. split; [reflexivity|]. cbn [fst]. rewrite <- E. destruct c as [a1 a2 a3 a4]. cbn in *. destruct a3; [discriminate (H2 eq_refl)|reflexivity].
Qed.
