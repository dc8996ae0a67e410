(** Model of RN = research/residual_network.hpp (ResidualNeuralNetwork<float>) on top of PNN_Model.  A character is its code, a file its
    bytes (little endian, size_t of 8 bytes, float of 4, bool of 1).  The iteration order of the unordered_map is an input: functions that
    iterate take the entries in the order in which they are visited.  [alloc n] says whether an allocation of n bytes succeeds (when it
    does not, std::bad_alloc or std::length_error is thrown; strings of up to 15 characters need none).  A connection's protection object
    is only known to be there or not; what is printed is left out; the copy operations copy all members. *)
From Coq Require Import List NArith ZArith Bool Arith SpecFloat.
Import ListNotations.
From Verif Require Import Outcome Words Floats MBP_Model PNN_Model.
Local Open Scope N_scope.

(** ** strings *)
Definition str := list N.
Definition str_eqb (a b : str) : bool := if list_eq_dec N.eq_dec a b then true else false.
(* std::to_string(size_t): decimal, no leading zeros *)
Fixpoint dec_ (fuel : nat) (n : N) (acc : str) : str :=
  match fuel with O => acc | S f => let acc := (48 + n mod 10) :: acc in if n / 10 =? 0 then acc else dec_ f (n / 10) acc end.
Definition to_string (n : N) : str := dec_ (S (N.to_nat (N.size n))) n [].
(* std::stoull: white space, a sign, digits; the rest is ignored *)
Definition is_space (c : N) : bool := (c =? 32) || ((9 <=? c) && (c <=? 13)).
Definition is_digit (c : N) : bool := (48 <=? c) && (c <=? 57).
Fixpoint skip_spaces (s : str) : str := match s with c :: r => if is_space c then skip_spaces r else s | [] => [] end.
Fixpoint digits (s : str) (v : N) (any : bool) : option N :=
  match s with c :: r => if is_digit c then digits r (10 * v + (c - 48)) true else if any then Some v else None | [] => if any then Some v else None end.
Definition stoull (s : str) : outcome N :=
  let s := skip_spaces s in
  let '(neg, s) := match s with c :: r => if c =? 45 then (true, r) else if c =? 43 then (false, r) else (false, s) | [] => (false, s) end in
  match digits s 0 false with
  | None => Throw E_invalid_argument
  | Some v => if v <? 2 ^ 64 then Ret (if neg then (2 ^ 64 - v) mod 2 ^ 64 else v) else Throw E_out_of_range
  end.
(* std::string::find("->") *)
Fixpoint find_arrow (s : str) : option nat :=
  match s with
  | c :: r => if (c =? 45) && (match r with c' :: _ => c' =? 62 | [] => false end) then Some O else option_map S (find_arrow r)
  | [] => None
  end.
(* std::string::substr(pos) *)
Definition substr_from (s : str) (pos : nat) : outcome str := if Nat.ltb (length s) pos then Throw E_out_of_range else Ret (skipn pos s).

(** ** the network *)
(* RN:162-173; the projection of a new connection is the identity *)
Record conn := mkConn { projection : list N -> list N; cweights : list N; protected : bool }.
Definition new_conn : conn := mkConn (fun v => v) [] false.
(* RN:176 *)
Record rnn := mkRNN { base : pnn; conns : list (str * conn) }.
(* RN:202-215 *)
Local Open Scope outcome_scope.
Definition rnn_new (layer_sizes : list nat) (level : plevel) (init : nat -> nat -> nat -> N) : outcome rnn :=
  s <- pnn_new layer_sizes level init ;; Ret (mkRNN s []).
Definition rnn_new2 (input output : nat) := rnn_new [input; output].
(* unordered_map: find, operator[] = and erase *)
Fixpoint lookup (k : str) (l : list (str * conn)) : option conn := match l with [] => None | (k', c) :: l => if str_eqb k k' then Some c else lookup k l end.
Fixpoint put (k : str) (c : conn) (l : list (str * conn)) : list (str * conn) :=
  match l with [] => [(k, c)] | (k', c') :: l => if str_eqb k k' then (k', c) :: l else (k', c') :: put k c l end.
Fixpoint erase (k : str) (l : list (str * conn)) : list (str * conn) :=
  match l with [] => [] | (k', c') :: l => if str_eqb k k' then l else (k', c') :: erase k l end.
(* RN:274-277 *)
Definition makeConnectionKey (from to : N) : str := to_string from ++ [45; 62] ++ to_string to.
(* PN:231-233 *)
Definition getLayerCount (s : rnn) : N := N.of_nat (length (sizes (base s))).
(* RN:280-310; RN:188-191 gives a vector of getLayerCount() zeros *)
Definition addSkipConnection (s : rnn) (from to : N) : bool * rnn :=
  let count := getLayerCount s in
  let limit := wrap 64 (count + 2 ^ 64 - 1) in
  if (limit <=? from) || (count <=? to) then (false, s)
  else if to <=? from then (false, s)
  else (true, mkRNN (base s) (put (makeConnectionKey from to) new_conn (conns s))).
(* RN:313-322 *)
Definition removeSkipConnection (s : rnn) (from to : N) : bool * rnn :=
  match lookup (makeConnectionKey from to) (conns s) with
  | Some _ => (true, mkRNN (base s) (erase (makeConnectionKey from to) (conns s)))
  | None => (false, s)
  end.
(* RN:325-334 *)
Definition setSkipProjection (s : rnn) (from to : N) (p : list N -> list N) : rnn :=
  match lookup (makeConnectionKey from to) (conns s) with
  | Some c => mkRNN (base s) (put (makeConnectionKey from to) (mkConn p (cweights c) (protected c)) (conns s))
  | None => s
  end.
(* RN:265-271 *)
Definition addResidualBlock (s : rnn) (size : N) (activation : N) (dropout : sf) : rnn := s.
(* RN:337-357, 360-378: radiation on the skip connections changes nothing *)
Definition rforward (s : rnn) (x : list N) (rad : sf) (d : nat -> nat -> act_draw) : outcome (list N * rnn) :=
  r <- forward (base s) x rad d ;; Ret (fst r, mkRNN (snd r) (conns s)).
(* RN:395-398 *)
Definition getSkipConnectionCount (s : rnn) : N := N.of_nat (length (conns s)).
(* RN:401-416; [it]: the entries in the order visited.  Without an arrow the position is npos, and npos + 2 wraps to 1 *)
Definition parse_key (k : str) : outcome (N * N) :=
  from <- stoull (match find_arrow k with Some i => firstn i k | None => k end) ;;
  rest <- substr_from k (match find_arrow k with Some i => i + 2 | None => 1 end)%nat ;;
  to <- stoull rest ;;
  Ret (from, to).
Fixpoint getSkipConnections (it : list (str * conn)) : outcome (list (N * N)) :=
  match it with [] => Ret [] | (k, _) :: it => p <- parse_key k ;; r <- getSkipConnections it ;; Ret (p :: r) end.
(* RN:449-470: all of [data] is one input *)
Definition rcalculateLoss (s : rnn) (data labels : list N) : outcome (N * rnn) :=
  r <- rforward s data (S754_zero false) no_draws ;;
  let out := fst r in
  let loss := fold_left (fun acc i => let diff := f32sub (nth i out 0) (nth i labels 0) in f32add acc (f32mul diff diff)) (seq 0 (Nat.min (length out) (length labels))) 0 in
  Ret (if Nat.eqb (length out) 0 then loss else f32div loss (f32ofN (N.of_nat (length out))), snd r).
(* RN:437-446 *)
Definition revaluate (s : rnn) (data labels : list N) : outcome (N * rnn) :=
  r <- rcalculateLoss s data labels ;; Ret (f32sub (f32ofN 1) (fst r), snd r).
(* RN:421-434; the number of epochs is an int, batch size and learning rate are not used *)
Fixpoint rtrain_ (s : rnn) (data labels : list N) (epochs : nat) (loss : N) : outcome (N * rnn) :=
  match epochs with O => Ret (loss, s) | S e => r <- rcalculateLoss s data labels ;; rtrain_ (snd r) data labels e (fst r) end.
Definition rtrain (s : rnn) (data labels : list N) (epochs : Z) : outcome (N * rnn) := rtrain_ s data labels (Z.to_nat epochs) 0.

(** ** files *)
Fixpoint le (k : nat) (v : N) : list N := match k with O => [] | S k => (v mod 256) :: le k (v / 256) end.
Fixpoint unle (b : list N) : N := match b with [] => 0 | x :: b => x + 256 * unle b end.
(* RN:532-553 *)
Definition save_conn (p : str * conn) : list N :=
  let '(k, c) := p in
  le 8 (N.of_nat (length k)) ++ k ++ le 8 (N.of_nat (length (cweights c))) ++ concat (map (le 4) (cweights c)) ++ [if protected c then 1 else 0].
(* RN:473-478, 497-563: saveState() is empty, so no layers are written; [it]: the entries in the order visited *)
Definition file_of (it : list (str * conn)) : list N :=
  le 8 0 ++ le 8 (N.of_nat (length it)) ++ concat (map save_conn it).
(* [opens]: the file can be opened; [room]: how many bytes the disk takes.  No write is checked *)
Definition saveToFile (it : list (str * conn)) (opens : bool) (room : nat) : bool * option (list N) :=
  if opens then (true, Some (firstn room (file_of it))) else (false, None).
(** an input stream: the bytes that remain, and whether it is good *)
Record stream := mkStream { rest : list N; good : bool }.
(* std::istream::read: what was stored; at the end of the file the stream fails and further reads store nothing *)
Definition read (n : N) (f : stream) : list N * stream :=
  if good f then
    if n <=? N.of_nat (length (rest f)) then (firstn (N.to_nat n) (rest f), mkStream (skipn (N.to_nat n) (rest f)) true)
    else (rest f, mkStream [] false)
  else ([], f).
(* a size_t that was not initialised; used immediately *)
Definition read_raw (f : stream) : outcome (N * stream) :=
  let '(b, f) := read 8 f in if Nat.eqb (length b) 8 then Ret (unle b, f) else UB UB_uninit.
(* a size_t that was 0: the bytes read are its low bytes *)
Definition read_zero (f : stream) : N * stream := let '(b, f) := read 8 f in (unle b, f).
(* RN:581-598 *)
Inductive loaded (A : Type) := Ok (a : A) | Failed.   (* Failed: an exception was thrown *)
Arguments Ok {A} a.
Arguments Failed {A}.
Fixpoint load_neurons (alloc : N -> bool) (n : nat) (f : stream) : outcome (loaded stream) :=
  match n with
  | O => Ret (Ok f)
  | S n =>
    r <- read_raw f ;;
    if negb (alloc (4 * fst r)) then Ret Failed
    else let f := if 0 <? fst r then snd (read (4 * fst r) (snd r)) else snd r in load_neurons alloc n f
  end.
Fixpoint load_layers (alloc : N -> bool) (n : nat) (f : stream) : outcome (loaded stream) :=
  match n with
  | O => Ret (Ok f)
  | S n =>
    r <- read_raw f ;;
    if negb (alloc (24 * fst r)) then Ret Failed
    else q <- load_neurons alloc (N.to_nat (fst r)) (snd r) ;;
         match q with Ok f => load_layers alloc n f | Failed => Ret Failed end
  end.
(* what a buffer of n bytes, all [fill], holds after a read *)
Definition filled (n : N) (fill : N) (b : list N) : list N := b ++ repeat fill (N.to_nat n - length b).
Fixpoint words (n : nat) (b : list N) : list N := match n with O => [] | S n => unle (firstn 4 b) :: words n (skipn 4 b) end.
(* RN:610-647; a bool whose byte is neither 0 nor 1 has no value *)
Fixpoint load_conns (alloc : N -> bool) (n : nat) (f : stream) (m : list (str * conn)) : outcome (bool * list (str * conn)) :=
  match n with
  | O => Ret (true, m)
  | S n =>
    let '(kl, f) := read_zero f in
    if negb ((kl <=? 15) || alloc (kl + 1)) then Ret (false, m)
    else
      let '(kb, f) := read kl f in
      let key := filled kl 32 kb in
      let '(wc, f) := read_zero f in
      if (0 <? wc) && negb (alloc (4 * wc)) then Ret (false, m)
      else
        let '(wb, f) := if 0 <? wc then read (4 * wc) f else ([], f) in
        let w := words (N.to_nat wc) (filled (4 * wc) 0 wb) in
        let '(pb, f) := read 1 f in
        match pb with
        | [] | [0] => load_conns alloc n f (put key (mkConn (fun v => v) w false) m)
        | [1] => load_conns alloc n f (put key (mkConn (fun v => v) w true) m)
        | _ => UB UB_uninit
        end
  end.
(* RN:566-657; None: the file cannot be opened *)
Definition loadFromFile (s : rnn) (file : option (list N)) (alloc : N -> bool) : outcome (bool * rnn) :=
  match file with
  | None => Ret (false, s)
  | Some bytes =>
    r <- read_raw (mkStream bytes true) ;;
    if negb (alloc (24 * fst r)) then Ret (false, s)
    else
      q <- load_layers alloc (N.to_nat (fst r)) (snd r) ;;
      match q with
      | Failed => Ret (false, s)
      | Ok f => let '(count, f) := read_zero f in
                z <- load_conns alloc (N.to_nat count) f [] ;; Ret (fst z, mkRNN (base s) (snd z))
      end
  end.

(** a history of calls *)
Inductive rop := RBase (o : op) | RAdd (from to : N) | RRemove (from to : N) | RProject (from to : N) (p : list N -> list N) | RBlock (size activation : N) (dropout : sf)
               | RForward (x : list N) (rad : sf) (d : nat -> nat -> act_draw) | RTrain (data labels : list N) (epochs : Z).
(* an exception leaves the network as it is at that point *)
Definition rstep (s : rnn) (o : rop) : outcome rnn :=
  match o with
  | RBase o => b <- step (base s) o ;; Ret (mkRNN b (conns s))
  | RAdd f t => Ret (snd (addSkipConnection s f t))
  | RRemove f t => Ret (snd (removeSkipConnection s f t))
  | RProject f t p => Ret (setSkipProjection s f t p)
  | RBlock n a d => Ret (addResidualBlock s n a d)
  | RForward x rad d => match rforward s x rad d with Ret r => Ret (snd r) | Throw _ => Ret s | UB u => UB u | OutOfFuel => OutOfFuel end
  | RTrain x y e => match rtrain s x y e with Ret r => Ret (snd r) | Throw _ => Ret s | UB u => UB u | OutOfFuel => OutOfFuel end
  end.
Fixpoint rrun (s : rnn) (ops : list rop) : outcome rnn := match ops with [] => Ret s | o :: ops => s <- rstep s o ;; rrun s ops end.
