(** C258-C268: residual networks (research/residual_network.hpp). *)
From Coq Require Import List NArith ZArith Bool Arith Lia Permutation SpecFloat.
Import ListNotations.
From Verif Require Import Outcome Words Floats MBP_Model PNN_Model PNN_Spec PNN_Proofs PNN2_Proofs PNN3_Proofs PNN6_Proofs PNN_Props Residual_Model Residual_Spec Residual_Proofs Residual2_Proofs Residual3_Proofs.
Local Open Scope N_scope.

(** Concrete networks: 1.0f for every weight. *)
Definition res (ls : list nat) : rnn := mkRNN (built ls NONE_ one) [].
Definition after (s : rnn) (ops : list rop) : rnn := match rrun s ops with Ret s => s | _ => s end.
Definition links (s : rnn) := getSkipConnections (conns s).
Lemma res3 : rnn_new [1; 1; 1]%nat NONE_ (fun _ _ _ => one) = Ret (res [1; 1; 1]%nat). Proof. reflexivity. Qed.
Lemma res2 : rnn_new [1; 1]%nat NONE_ (fun _ _ _ => one) = Ret (res [1; 1]%nat). Proof. reflexivity. Qed.
Lemma res_reach3 ops s : rrun (res [1; 1; 1]%nat) ops = Ret s -> rreachable s.
Proof. intros H. exists [1; 1; 1]%nat, NONE_, (fun _ _ _ => one), (res [1; 1; 1]%nat), ops. split; [exact res3|exact H]. Qed.
Definition plenty : N -> bool := fun _ => true.
(** what can be seen of a connection, and of the outcome of loading *)
Definition seen (p : str * conn) : str * list N * bool := (fst p, cweights (snd p), protected (snd p)).
Definition view (o : outcome (bool * rnn)) : option (bool * list (str * list N * bool) * outcome (list (N * N))) :=
  match o with Ret (ok, r) => Some (ok, map seen (conns r), links r) | _ => None end.
Lemma viewed o ok c l : view o = Some (ok, c, l) -> exists r, o = Ret (ok, r) /\ map seen (conns r) = c /\ links r = l.
Proof. destruct o as [[b r]| | |]; try discriminate. cbn. intros H. injection H as <- <- <-. exists r. auto. Qed.

(** ** C258 *)
Theorem C258_connections : forall ls lv init s0 ops s it, rnn_new ls lv init = Ret s0 -> N.of_nat (length ls) < 2 ^ 64 -> Forall size_args ops -> rrun s0 ops = Ret s -> Permutation (conns s) it ->
  exists ps, getSkipConnections it = Ret ps /\ N.of_nat (length ps) = getSkipConnectionCount s /\ NoDup ps /\
    (forall f t, In (f, t) ps <-> connected (N.of_nat (length ls)) ops f t = true).
Proof.
  intros ls lv init s0 ops s it H HL HA HR HP. destruct (history _ _ _ _ _ _ H HL HA HR) as (_ & _ & K). destruct (connections it s _ _ HP (N.lt_le_incl _ _ HL) K) as (ps & E1 & E2 & E3 & E4).
  exists ps. split; [exact E1|]. split; [exact E2|]. split; [exact E3|]. intros f t. rewrite E4. split; [tauto|]. intros C. split; [exact C|]. destruct (connected_valid _ _ _ _ C). eapply sizet_lt; [|eassumption|eassumption]. lia.
Qed.
(** What the calls answer. *)
Theorem C258_answers : forall ls lv init s0 ops s f t, rnn_new ls lv init = Ret s0 -> N.of_nat (length ls) < 2 ^ 64 -> Forall size_args ops -> rrun s0 ops = Ret s -> size_t f -> size_t t ->
  fst (addSkipConnection s f t) = (f <? t) && (t <? N.of_nat (length ls)) /\ (fst (addSkipConnection s f t) = false -> snd (addSkipConnection s f t) = s) /\
  fst (removeSkipConnection s f t) = connected (N.of_nat (length ls)) ops f t /\ (fst (removeSkipConnection s f t) = false -> snd (removeSkipConnection s f t) = s).
Proof.
  intros ls lv init s0 ops s f t H HL HA HR Hf Ht. destruct (history _ _ _ _ _ _ H HL HA HR) as (I & E & (_ & _ & K)).
  assert (G : getLayerCount s = N.of_nat (length ls)) by (unfold getLayerCount; rewrite E; reflexivity).
  assert (P : 0 < getLayerCount s) by (unfold getLayerCount; pose proof (inv_len _ I); lia).
  rewrite add_valid by (rewrite ?G in *; assumption). rewrite G. specialize (K f t Hf Ht). unfold removeSkipConnection.
  destruct ((f <? t) && (t <? N.of_nat (length ls))); destruct (lookup (makeConnectionKey f t) (conns s)) eqn:L; cbn [fst snd].
  all: (split; [reflexivity|]); (split; [intros Q; solve [discriminate Q|reflexivity]|]); (split; [|intros Q; solve [discriminate Q|reflexivity]]).
  all: destruct (connected _ _ _ _); solve [reflexivity|exfalso; apply (proj2 K); congruence|exfalso; assert (false = true) by (apply (proj1 K); congruence); discriminate].
Qed.
Example C258_nonvacuous : exists s, rrun (res [1; 1; 1]%nat) [RAdd 0 2; RAdd 0 1; RAdd 1 1; RAdd 1 3; RRemove 0 1; RAdd 1 2; RAdd 0 2] = Ret s /\ links s = Ret [(0, 2); (1, 2)] /\ getSkipConnectionCount s = 2.
Proof. eexists. split; [reflexivity|]. split; vm_compute; reflexivity. Qed.
Print Assumptions C258_connections.
Print Assumptions C258_answers.

(** ** C259 *)
(** The output is that of the plain layers, whatever connections and projections there are. *)
Theorem C259_ignored_refuted : forall s x rad d, rreachable s -> no_vote (base s) rad -> length x = hd O (sizes (base s)) ->
  exists s', rforward s x rad d = Ret (network (params (base s)) (acts (base s)) x, s') /\ conns s' = conns s.
Proof.
  intros s x rad d HR NV HX. destruct (rreachable_inv s HR) as [HI _]. destruct (forward_quiet (base s) x rad d HI NV HX) as (c & E). unfold rforward. rewrite E. eexists. split; reflexivity.
Qed.
(** What is true: the base class behaves as before, and the connections as a set are kept. *)
Theorem C259_base_partial : forall s x rad d cs, rforward (mkRNN (base s) cs) x rad d = obind (forward (base s) x rad d) (fun r => Ret (fst r, mkRNN (snd r) cs)).
Proof. reflexivity. Qed.
Example C259_nonvacuous : exists s s', rrun (res [1; 1; 1]%nat) [RAdd 0 2; RProject 0 2 (fun _ => [three])] = Ret s /\ rreachable s /\ getSkipConnectionCount s = 1 /\ rforward s [one] (S754_zero false) no_draws = Ret ([one], s').
Proof.
  set (s := after (res [1; 1; 1]%nat) [RAdd 0 2; RProject 0 2 (fun _ => [three])]). assert (E : rrun (res [1; 1; 1]%nat) [RAdd 0 2; RProject 0 2 (fun _ => [three])] = Ret s) by reflexivity.
  assert (HR : rreachable s) by (eapply res_reach3, E). destruct (C259_ignored_refuted s [one] (S754_zero false) no_draws HR) as (s' & F & _); [right; reflexivity|reflexivity|].
  exists s, s'. split; [exact E|]. split; [exact HR|]. split; [reflexivity|]. rewrite F. f_equal. 
Qed.
Print Assumptions C259_ignored_refuted.
Print Assumptions C259_base_partial.

(** ** C260 *)
Theorem C260_nothing_added_refuted : forall s size activation dropout, addResidualBlock s size activation dropout = s /\ getLayerCount (addResidualBlock s size activation dropout) = getLayerCount s.
Proof. intros. split; reflexivity. Qed.
(** What is true: it does no harm: in any history it can be left out. *)
Theorem C260_harmless_partial : forall s ops1 ops2 size activation dropout, rrun s (ops1 ++ RBlock size activation dropout :: ops2) = rrun s (ops1 ++ ops2).
Proof.
  intros s ops1 ops2 size activation dropout. revert s. induction ops1 as [|o ops1 IH]; intros s; [reflexivity|]. cbn [app rrun]. destruct (rstep s o); cbn [obind]; auto.
Qed.
Example C260_nonvacuous : rrun (res [1; 1; 1]%nat) [RBlock 4 0 (S754_zero false)] = Ret (res [1; 1; 1]%nat).
Proof. reflexivity. Qed.
Print Assumptions C260_nothing_added_refuted.
Print Assumptions C260_harmless_partial.

(** ** C261 *)
(** Whatever is in the map, in whatever order it is written: it is read back, into any network. *)
Theorem C261_round_trip : forall s it room alloc, storable it -> (length (file_of it) <= room)%nat -> (forall z, z <= N.of_nat (length (file_of it)) -> alloc z = true) ->
  exists file, saveToFile it true room = (true, Some file) /\ loadFromFile s (Some file) alloc = Ret (true, mkRNN (base s) (map plain_conn it)).
Proof.
  intros s it room alloc HS HR HA. eexists. split; [reflexivity|]. destruct (load_file alloc s it room HS HA) as [_ H].
  destruct H as (m & E & F); [unfold file_of in HR; rewrite !app_length, !le_length in HR; lia|]. rewrite (F HR) in E. exact E.
Qed.
(** The connections of a network with any history can be stored, so the network that loaded them lists the same ones. *)
Theorem C261_same_connections : forall ls lv init s0 ops s it s' room alloc, rnn_new ls lv init = Ret s0 -> N.of_nat (length ls) < 2 ^ 64 -> Forall size_args ops -> rrun s0 ops = Ret s -> size_t (N.of_nat (length (conns s))) ->
  Permutation (conns s) it -> (length (file_of it) <= room)%nat -> (forall z, z <= N.of_nat (length (file_of it)) -> alloc z = true) ->
  exists file r, saveToFile it true room = (true, Some file) /\ loadFromFile s' (Some file) alloc = Ret (true, r) /\ getSkipConnections (conns r) = getSkipConnections it.
Proof.
  intros ls lv init s0 ops s it s' room alloc H HL HA HR HC HP HM HAl. pose proof (Permutation_storable _ _ HP (history_storable _ _ _ _ _ _ H HL HA HR HC)) as HS.
  destruct (C261_round_trip s' it room alloc HS HM HAl) as (file & E1 & E2). exists file. eexists. split; [exact E1|]. split; [exact E2|]. cbn [conns].
  clear. induction it as [|[k c] it IH]; [reflexivity|]. cbn [map plain_conn getSkipConnections fst snd]. rewrite IH. reflexivity.
Qed.
Example C261_nonvacuous : storable [([48; 45; 62; 49], mkConn (fun v => v) [one; two] true)] /\
  exists r, loadFromFile (res [1; 1]%nat) (snd (saveToFile [([48; 45; 62; 49], mkConn (fun v => v) [one; two] true)] true 100)) plenty = Ret (true, r) /\ map seen (conns r) = [([48; 45; 62; 49], [one; two], true)] /\ links r = Ret [(0, 1)].
Proof.
  split.
  - split; [repeat constructor; cbn; tauto|]. split; [reflexivity|]. constructor; [|constructor]. cbn [fst snd cweights]. split; [repeat constructor|]. split; [reflexivity|]. split; [repeat constructor|reflexivity].
  - apply viewed. vm_compute. reflexivity.
Qed.
Print Assumptions C261_round_trip.
Print Assumptions C261_same_connections.

(** ** C262 *)
(** Loading never touches the layers: a network loaded from the file of another one computes what it computed before. *)
Theorem C262_not_restored_refuted : forall s file alloc ok s', loadFromFile s file alloc = Ret (ok, s') -> base s' = base s.
Proof.
  intros s file alloc ok s' H. unfold loadFromFile in H. destruct file as [b|]; [|injection H as _ <-; reflexivity]. apply obind_ret in H. destruct H as (r & _ & H). destruct (negb _); [injection H as _ <-; reflexivity|].
  apply obind_ret in H. destruct H as ([f|] & _ & H); [|injection H as _ <-; reflexivity]. destruct (read_zero f) as [n f']. apply obind_ret in H. destruct H as (z & _ & H). injection H as _ <-. reflexivity.
Qed.
Theorem C262_example_refuted : exists a b file b', rreachable a /\ saveToFile (conns a) true 1000 = (true, Some file) /\ loadFromFile b (Some file) plenty = Ret (true, b') /\
  network (params (base a)) (acts (base a)) [one] = [one] /\ network (params (base b')) (acts (base b')) [one] = [1082130432].
Proof.
  exists (res [1; 1; 1]%nat), (mkRNN (built [1; 1; 1]%nat NONE_ two) []). eexists. eexists. split; [apply (res_reach3 []); reflexivity|]. split; [vm_compute; reflexivity|]. split; [reflexivity|]. split; vm_compute; reflexivity.
Qed.
(** What is true of a file written completely: the connections with weights and protection (C261); their projections become the identity. *)
Theorem C262_projections_partial : forall s it alloc, storable it -> (forall z, z <= N.of_nat (length (file_of it)) -> alloc z = true) ->
  exists r, loadFromFile s (Some (file_of it)) alloc = Ret (true, r) /\ map fst (conns r) = map fst it /\ Forall2 (fun p q => cweights (snd p) = cweights (snd q) /\ protected (snd p) = protected (snd q) /\ forall v, projection (snd p) v = v) (conns r) it.
Proof.
  intros s it alloc HS HA. destruct (load_file alloc s it (length (file_of it)) HS HA) as [_ H]. destruct H as (m & E & F); [unfold file_of; rewrite !app_length, !le_length; lia|].
  rewrite firstn_all in E. rewrite (F (le_n _)) in E. eexists. split; [exact E|]. cbn [conns]. clear. split; [rewrite map_map; reflexivity|]. induction it as [|[k c] it IH]; constructor; [|exact IH]. split; [reflexivity|]. split; reflexivity.
Qed.
Example C262_nonvacuous : rreachable (after (res [1; 1; 1]%nat) [RAdd 0 2]) /\ storable (conns (after (res [1; 1; 1]%nat) [RAdd 0 2])).
Proof. split; [apply (res_reach3 [RAdd 0 2]); reflexivity|]. apply (history_storable [1; 1; 1]%nat NONE_ (fun _ _ _ => one) _ [RAdd 0 2] _ res3); [reflexivity|repeat constructor|reflexivity|reflexivity]. Qed.
Print Assumptions C262_not_restored_refuted.
Print Assumptions C262_example_refuted.
Print Assumptions C262_projections_partial.

(** ** C263 *)
(** A load that fails after the layers loses the connections there were. *)
Definition tiny : N -> bool := fun n => n <? 1000.
Theorem C263_failed_load_refuted : exists s file s', rreachable s /\ links s = Ret [(0, 2)] /\ loadFromFile s (Some file) tiny = Ret (false, s') /\ links s' = Ret [].
Proof.
  exists (after (res [1; 1; 1]%nat) [RAdd 0 2]), (le 8 0 ++ le 8 1 ++ le 8 5000). 
  destruct (viewed (loadFromFile (after (res [1; 1; 1]%nat) [RAdd 0 2]) (Some (le 8 0 ++ le 8 1 ++ le 8 5000)) tiny) false [] (Ret [])) as (s' & E & _ & L); [vm_compute; reflexivity|].
  exists s'. split; [apply (res_reach3 [RAdd 0 2]); reflexivity|]. split; [vm_compute; reflexivity|]. split; [exact E|exact L].
Qed.
Theorem C263_missing_file_partial : forall s alloc, loadFromFile s None alloc = Ret (false, s).
Proof. reflexivity. Qed.
Theorem C263_layers_partial : forall s file alloc b s', loadFromFile s file alloc = Ret (b, s') ->
  base s' = base s /\ (s' = s \/ exists bytes r f, file = Some bytes /\ read_raw (mkStream bytes true) = Ret r /\ alloc (24 * fst r)%N = true /\ load_layers alloc (N.to_nat (fst r)) (snd r) = Ret (Ok f)).
Proof.
  intros s file alloc b s' H. unfold loadFromFile in H. destruct file as [bytes|]; [|injection H as <- <-; split; [|left]; reflexivity].
  destruct (read_raw (mkStream bytes true)) as [r| | |] eqn:E; cbn [obind] in H; try discriminate H. destruct (alloc (24 * fst r)%N) eqn:A; cbn [negb] in H; [|injection H as <- <-; split; [|left]; reflexivity].
  destruct (load_layers alloc (N.to_nat (fst r)) (snd r)) as [[f|]| | |] eqn:L; cbn [obind] in H; try discriminate H; [|injection H as <- <-; split; [|left]; reflexivity].
  destruct (read_zero f) as [count g]. destruct (load_conns alloc (N.to_nat count) g []) as [z| | |]; cbn [obind] in H; try discriminate H. injection H as <- <-. split; [reflexivity|]. right. exists bytes, r, f. auto.
Qed.
Example C263_nonvacuous : tiny 100 = true /\ tiny 5001 = false. Proof. split; reflexivity. Qed.
Print Assumptions C263_failed_load_refuted.
Print Assumptions C263_missing_file_partial.
Print Assumptions C263_layers_partial.

(** ** C264 *)
(** No truncation is detected: cut anywhere behind the first 8 bytes, the file is loaded with the answer true. *)
Theorem C264_truncated_refuted : forall s it n alloc, storable it -> (forall z, z <= N.of_nat (length (file_of it)) -> alloc z = true) -> (8 <= n)%nat ->
  exists m, loadFromFile s (Some (firstn n (file_of it))) alloc = Ret (true, mkRNN (base s) m).
Proof. intros s it n alloc HS HA HN. destruct (load_file alloc s it n HS HA) as [_ H]. destruct (H HN) as (m & E & _). exists m. exact E. Qed.
(** Connections are lost, changed, or no longer readable. *)
Theorem C264_damage_refuted : let it := [(makeConnectionKey 0 12, new_conn); (makeConnectionKey 3 4, new_conn)] in storable it /\
  (exists s', loadFromFile (res [1; 1]%nat) (Some (firstn 8 (file_of it))) plenty = Ret (true, s') /\ links s' = Ret []) /\
  (exists s', loadFromFile (res [1; 1]%nat) (Some (firstn 28 (file_of it))) plenty = Ret (true, s') /\ conns s' <> [] /\ links s' = Throw E_invalid_argument) /\
  (exists s', loadFromFile (res [1; 1]%nat) (Some (firstn 49 (file_of it))) plenty = Ret (true, s') /\ links s' = Throw E_invalid_argument).
Proof.
  cbn zeta. split; [|split; [|split]].
  - split; [vm_compute; repeat constructor; cbn [In]; intuition congruence|]. split; [reflexivity|]. repeat (constructor; [cbn [fst snd cweights new_conn]; split; [vm_compute; repeat constructor|]; split; [reflexivity|]; split; [constructor|reflexivity]|]). constructor.
  - destruct (viewed (loadFromFile (res [1; 1]%nat) (Some (firstn 8 (file_of [(makeConnectionKey 0 12, new_conn); (makeConnectionKey 3 4, new_conn)]))) plenty) true [] (Ret [])) as (r & E & _ & L); [vm_compute; reflexivity|]. exists r. auto.
  - edestruct (viewed (loadFromFile (res [1; 1]%nat) (Some (firstn 28 (file_of [(makeConnectionKey 0 12, new_conn); (makeConnectionKey 3 4, new_conn)]))) plenty) true) as (r & E & C & L); [vm_compute; reflexivity|]. exists r. split; [exact E|]. split; [|exact L]. intros Q. rewrite Q in C. discriminate C.
  - edestruct (viewed (loadFromFile (res [1; 1]%nat) (Some (firstn 49 (file_of [(makeConnectionKey 0 12, new_conn); (makeConnectionKey 3 4, new_conn)]))) plenty) true) as (r & E & _ & L); [vm_compute; reflexivity|]. exists r. split; [exact E|exact L].
Qed.
(** a key cut in the middle is another connection: 0->12 becomes 0->1 *)
Theorem C264_wrong_connection_refuted : exists s', loadFromFile (res [1; 1]%nat) (Some (firstn 28 (file_of [(makeConnectionKey 0 12, new_conn)]))) plenty = Ret (true, s') /\ links s' = Ret [(0, 1)].
Proof. edestruct (viewed (loadFromFile (res [1; 1]%nat) (Some (firstn 28 (file_of [(makeConnectionKey 0 12, new_conn)]))) plenty) true) as (r & E & _ & L); [vm_compute; reflexivity|]. exists r. split; [exact E|exact L]. Qed.
(** What is true: a complete file is read back completely. *)
Theorem C264_complete_partial : forall s it n alloc, storable it -> (forall z, z <= N.of_nat (length (file_of it)) -> alloc z = true) -> (length (file_of it) <= n)%nat ->
  loadFromFile s (Some (firstn n (file_of it))) alloc = Ret (true, mkRNN (base s) (map plain_conn it)).
Proof.
  intros s it n alloc HS HA HN. destruct (load_file alloc s it n HS HA) as [_ H]. destruct H as (m & E & F); [unfold file_of in HN; rewrite !app_length, !le_length in HN; lia|]. rewrite (F HN) in E. exact E.
Qed.
Example C264_nonvacuous : length (file_of [(makeConnectionKey 0 12, new_conn); (makeConnectionKey 3 4, new_conn)]) = 59%nat. Proof. reflexivity. Qed.
Print Assumptions C264_truncated_refuted.
Print Assumptions C264_damage_refuted.
Print Assumptions C264_wrong_connection_refuted.
Print Assumptions C264_complete_partial.

(** ** C265 *)
Theorem C265_undefined_refuted : forall s it n alloc, storable it -> (forall z, z <= N.of_nat (length (file_of it)) -> alloc z = true) -> (n < 8)%nat -> loadFromFile s (Some (firstn n (file_of it))) alloc = UB UB_uninit.
Proof. intros s it n alloc HS HA HN. destruct (load_file alloc s it n HS HA) as [H _]. exact (H HN). Qed.
(** a file that is complete but has another byte where the protection is noted *)
Theorem C265_bad_byte_refuted : loadFromFile (res [1; 1]%nat) (Some (le 8 0 ++ le 8 1 ++ le 8 0 ++ le 8 0 ++ [2])) plenty = UB UB_uninit.
Proof. reflexivity. Qed.
(** What is true: every file written by a network, cut anywhere behind the first 8 bytes, is read without undefined behaviour. *)
Theorem C265_saved_partial : forall s it n alloc, storable it -> (forall z, z <= N.of_nat (length (file_of it)) -> alloc z = true) -> (8 <= n)%nat -> ~ is_UB (loadFromFile s (Some (firstn n (file_of it))) alloc).
Proof. intros s it n alloc HS HA HN (u & E). destruct (C264_truncated_refuted s it n alloc HS HA HN) as (m & F). rewrite F in E. discriminate. Qed.
Example C265_nonvacuous : loadFromFile (res [1; 1]%nat) (Some []) plenty = UB UB_uninit. Proof. reflexivity. Qed.
Print Assumptions C265_undefined_refuted.
Print Assumptions C265_bad_byte_refuted.
Print Assumptions C265_saved_partial.

(** ** C266 *)
(** Connections are not checked against the network that loads them. *)
Theorem C266_invalid_connection_refuted : exists a b file b', rreachable a /\ saveToFile (conns a) true 1000 = (true, Some file) /\ loadFromFile b (Some file) plenty = Ret (true, b') /\ getLayerCount b' = 2 /\ links b' = Ret [(0, 2)] /\
  fst (addSkipConnection b 0 2) = false.
Proof.
  exists (after (res [1; 1; 1]%nat) [RAdd 0 2]), (res [1; 1]%nat), (file_of (conns (after (res [1; 1; 1]%nat) [RAdd 0 2]))).
  destruct (viewed (loadFromFile (res [1; 1]%nat) (Some (file_of (conns (after (res [1; 1; 1]%nat) [RAdd 0 2])))) plenty) true [(makeConnectionKey 0 2, [], false)] (Ret [(0, 2)])) as (r & E & _ & L); [vm_compute; reflexivity|].
  exists r. split; [apply (res_reach3 [RAdd 0 2]); reflexivity|]. split; [vm_compute; reflexivity|]. split; [exact E|]. split; [|split; [exact L|reflexivity]]. pose proof (C262_not_restored_refuted _ _ _ _ _ E) as B. unfold getLayerCount. rewrite B. reflexivity.
Qed.
(** What is true: loaded into a network with at least as many layers, all connections are valid ones. *)
Theorem C266_enough_layers_partial : forall ls lv init s0 ops s it s' alloc, rnn_new ls lv init = Ret s0 -> N.of_nat (length ls) < 2 ^ 64 -> Forall size_args ops -> rrun s0 ops = Ret s -> size_t (N.of_nat (length (conns s))) ->
  Permutation (conns s) it -> (forall z, z <= N.of_nat (length (file_of it)) -> alloc z = true) -> N.of_nat (length ls) <= getLayerCount s' ->
  exists r ps, loadFromFile s' (Some (file_of it)) alloc = Ret (true, r) /\ getLayerCount r = getLayerCount s' /\ getSkipConnections (conns r) = Ret ps /\ Forall (fun p => fst p < snd p /\ snd p < getLayerCount r) ps.
Proof.
  intros ls lv init s0 ops s it s' alloc H HL HA HR HC HP HAl HG. destruct (C258_connections _ _ _ _ _ _ _ H HL HA HR HP) as (ps & E & _ & _ & V).
  destruct (C261_same_connections _ _ _ _ _ _ _ s' (length (file_of it)) alloc H HL HA HR HC HP (le_n _) HAl) as (file & r & E1 & E2 & E3). injection E1 as E1. rewrite firstn_all in E1. subst file.
  exists r, ps. split; [exact E2|]. pose proof (C262_not_restored_refuted _ _ _ _ _ E2) as B. assert (G : getLayerCount r = getLayerCount s') by (unfold getLayerCount; rewrite B; reflexivity).
  split; [exact G|]. split; [congruence|]. rewrite Forall_forall. intros [f t] Hin. apply V in Hin. apply connected_valid in Hin. cbn [fst snd]. rewrite G. lia.
Qed.
Example C266_nonvacuous : getLayerCount (res [1; 1; 1; 1]%nat) = 4 /\ connected 3 [RAdd 0 2] 0 2 = true. Proof. split; reflexivity. Qed.
Print Assumptions C266_invalid_connection_refuted.
Print Assumptions C266_enough_layers_partial.

(** ** C267 *)
(** The answer of saveToFile does not depend on whether the bytes could be written. *)
Theorem C267_full_disk_refuted : forall it room, exists file, saveToFile it true room = (true, Some file) /\ (length file <= room)%nat.
Proof. intros. eexists. split; [reflexivity|]. rewrite firstn_length. lia. Qed.
Theorem C267_cannot_open_partial : forall it room, fst (saveToFile it false room) = false /\ ((length (file_of it) <= room)%nat -> snd (saveToFile it true room) = Some (file_of it)).
Proof. intros. split; [reflexivity|]. intros H. cbn. rewrite firstn_all2 by exact H. reflexivity. Qed.
Example C267_nonvacuous : saveToFile [] true 0 = (true, Some []) /\ length (file_of []) = 16%nat. Proof. split; reflexivity. Qed.
Print Assumptions C267_full_disk_refuted.
Print Assumptions C267_cannot_open_partial.

(** ** C268 *)
(** Data of more (or less) than one sample is refused with an exception. *)
Theorem C268_several_samples_refuted : forall s data labels e, length data <> hd O (sizes (base s)) -> (1 <= e)%Z ->
  rcalculateLoss s data labels = Throw E_invalid_argument /\ revaluate s data labels = Throw E_invalid_argument /\ rtrain s data labels e = Throw E_invalid_argument.
Proof.
  intros s data labels e H He. pose proof (rloss_rejects s data labels H) as E. split; [exact E|]. unfold revaluate, rtrain. rewrite E. split; [reflexivity|].
  replace (Z.to_nat e) with (S (Z.to_nat (e - 1))) by lia. cbn [rtrain_]. rewrite E. reflexivity.
Qed.
(** What is true: for one sample, training answers the mean squared error, evaluation 1 minus it, and nothing is changed. *)
Theorem C268_one_sample_partial : forall s data labels e, rreachable s -> length data = hd O (sizes (base s)) ->
  let loss := label_error (network (params (base s)) (acts (base s)) data) labels in
  (exists s', rtrain s data labels e = Ret (if (e <? 1)%Z then 0 else loss, s') /\ conns s' = conns s /\ params (base s') = params (base s) /\ acts (base s') = acts (base s) /\ mirror (base s') = mirror (base s)) /\
  (exists s', revaluate s data labels = Ret (f32sub (f32ofN 1) loss, s') /\ conns s' = conns s /\ params (base s') = params (base s)).
Proof.
  intros s data labels e HR HX loss. destruct (rreachable_inv s HR) as [HI _]. split.
  - destruct (rtrain_value s data labels (Z.to_nat e) 0 HI HX) as (s' & E & (_ & S1 & S2 & S3 & _ & S4 & _)). exists s'. unfold rtrain. rewrite E. split; [|auto]. f_equal. f_equal.
    destruct (Z.ltb_spec e 1) as [L|L]; [replace (Z.to_nat e) with O by lia; reflexivity|replace (Z.to_nat e) with (S (Z.to_nat (e - 1))) by lia; reflexivity].
  - destruct (rloss_value s data labels HI HX) as (s' & E & (_ & S1 & S2 & _)). exists s'. unfold revaluate. rewrite E. cbn [obind fst snd]. auto.
Qed.
(** The "accuracy" is below 0 already for a loss above 1. *)
Theorem C268_accuracy_refuted : exists s', revaluate (res [1; 1]%nat) [three] [0] = Ret (3238002688, s') /\ SpecFloat.SFcompare (sf32 3238002688) (S754_zero false) = Some Lt.
Proof.
  destruct (C268_one_sample_partial (res [1; 1]%nat) [three] [0] 1) as (_ & (s' & E & _)); [exists [1; 1]%nat, NONE_, (fun _ _ _ => one), (res [1; 1]%nat), []; split; [exact res2|reflexivity]|reflexivity|].
  exists s'. rewrite E. split; [|vm_compute; reflexivity]. f_equal.
Qed.
Example C268_nonvacuous : label_error [one; two] [one] = 0 /\ label_error [three] [0] = 1091567616. Proof. split; vm_compute; reflexivity. Qed.
Print Assumptions C268_several_samples_refuted.
Print Assumptions C268_one_sample_partial.
Print Assumptions C268_accuracy_refuted.
