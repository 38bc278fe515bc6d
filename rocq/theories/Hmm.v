(** Model of [HiddenMarkovModel] (src/hiddenmarkovmodel.cc, include/hiddenmarkovmodel.h). Definitions only.

    The algorithm is written over a type [D] of numbers with the operations it uses; [double] is plugged in at the
    end of the file ([run_viterbi]). [log10] stays a parameter (libm), and so does the order in which an
    [unordered_map] is iterated. *)
From Verif Require Import Base Fp Key PitchClass.

Section Algorithm.
  Variable D : Type.
  Variable gt : D -> D -> bool.          (* operator> *)
  Variable add mul : D -> D -> D.        (* operator+, operator* *)
  Variable log10 : D -> D.               (* std::log10 *)
  Variable ninf zero : D.                (* -infinity, 0.0 *)

  (** include/hiddenmarkovmodel.h:47-53, ViterbiNode: probability and previousState; the default is (-inf, -1). *)
  Definition node : Type := (D * Z)%type.
  Definition default_node : node := (ninf, -1).

  (** include/hiddenmarkovmodel.h:59-66, the [unordered_map]s, as association lists. *)
  Definition table1 : Type := list (Z * D).
  Definition table2 : Type := list (Z * table1).
  Definition layer : Type := list (Z * node).

  (** [m[k]] on a map of numbers: a missing entry is created with value 0. *)
  Definition at1 (m : table1) (k : Z) : D :=
    match assoc Z.eqb k m with Some v => v | None => zero end.
  Definition at2 (m : table2) (k1 k2 : Z) : D :=
    match assoc Z.eqb k1 m with Some row => at1 row k2 | None => zero end.
  (** [currentLayer[k]]: a missing node is created by ViterbiNode's default constructor. *)
  Definition at_layer (l : layer) (k : Z) : node :=
    match assoc Z.eqb k l with Some n => n | None => default_node end.

  Variable states : list Z.              (* m_states *)
  Variable initial : table1.             (* m_initialProbabilities *)
  Variable transitions : table2.         (* m_transitionProbabilities *)
  Variable emissions : table2.           (* m_emissionProbabilities *)

  (** src/hiddenmarkovmodel.cc:189-196, the first layer. *)
  Definition first_layer (obs0 : Z) : layer :=
    fold_left (fun l s => assign Z.eqb s (log10 (mul (at1 initial s) (at2 emissions s obs0)), -1) l) states [].

  (** src/hiddenmarkovmodel.cc:207-211, the score of one step from [cur] to [next] seeing [obs]. *)
  Definition step_weight (cur next obs : Z) : D :=
    log10 (mul (at2 transitions cur next) (at2 emissions next obs)).

  (** src/hiddenmarkovmodel.cc:204-216, the best predecessor of [next]. *)
  Definition best_node (l : layer) (next obs : Z) : node :=
    fold_left (fun (best : node) cur =>
      let trial := add (fst (at_layer l cur)) (step_weight cur next obs) in
      if gt trial (fst best) then (trial, cur) else best) states default_node.

  (** src/hiddenmarkovmodel.cc:201-218, the next layer. *)
  Definition next_layer (l : layer) (obs : Z) : layer :=
    fold_left (fun nl next => assign Z.eqb next (best_node l next obs) nl) states [].

  (** src/hiddenmarkovmodel.cc:197-221, all layers, the last one first. *)
  Fixpoint layers_from (acc : list layer) (l : layer) (obs : list Z) : list layer :=
    match obs with
    | [] => l :: acc
    | o :: obs' => layers_from (l :: acc) (next_layer l o) obs'
    end.

  (** [probabilities[i] = p] on the vector of 24. *)
  Fixpoint set_nth (i : nat) (p : D) (v : list D) : list D :=
    match v, i with
    | [], _ => []
    | _ :: v', O => p :: v'
    | x :: v', S i' => x :: set_nth i' p v'
    end.
  Definition write_prob (probs : list D) (i : Z) (p : D) : outcome (list D) :=
    if (0 <=? i) && (i <? 24) then Ret (set_nth (Z.to_nat i) p probs) else Undef OutOfBounds.

  (** src/hiddenmarkovmodel.cc:228-236, the scan of the final layer, entries in the given (iteration) order. *)
  Fixpoint scan_last (entries : list (Z * node)) (lastState : Z) (maxp : D) (probs : list D)
    : outcome (Z * D * list D) :=
    match entries with
    | [] => Ret (lastState, maxp, probs)
    | (s, n) :: rest =>
        do probs' <- write_prob probs s (fst n);
        if gt (fst n) maxp then scan_last rest s (fst n) probs'
        else scan_last rest lastState maxp probs'
    end.

  (** Iteration order of an [unordered_map]: any rearrangement of its entries. *)
  Variable iter : layer -> list (Z * node).

  (** src/hiddenmarkovmodel.cc:225-242, the backward loop; [keys] is m_keySequence, grown at its end.
      Copying the unset Key(-1) is taken to be harmless (the next statement throws). *)
  Fixpoint backtrack (ls : list layer) (lastState : Z) (maxp : D) (probs : list D) (keys : list key)
    : outcome (list key * D * list D) :=
    match ls with
    | [] => Ret (keys, maxp, probs)
    | l :: ls' =>
        do (st, mp, pr) <- (if lastState =? -1 then scan_last (iter l) lastState maxp probs
                            else Ret (lastState, maxp, probs));
        match assoc Z.eqb st l with
        | None => Throws StdOutOfRange
        | Some n => backtrack ls' (snd n) mp pr (keys ++ [key_of_int st])
        end
    end.

  (** src/hiddenmarkovmodel.cc:183-248, runViterbi on the given observations; [keys] is m_keySequence before the
      call. With no observation [m_observations[0]] (or [std::next] of the end, when there is no state) is outside
      the vector. *)
  Definition viterbi (obs : list Z) (keys : list key) : outcome (list key * D * list D) :=
    match obs with
    | [] => Undef OutOfBounds
    | o :: obs' =>
        do (ks, mp, pr) <- backtrack (layers_from [] (first_layer o) obs') (-1) ninf (repeat zero 24) keys;
        Ret (rev ks, mp, pr)
    end.
End Algorithm.

(** include/hiddenmarkovmodel.h:86-95, the object. [None] = not assigned yet. *)
Record hmm := mkHmm {
  h_status : Z;
  h_obs : list Z; h_states : list Z;
  h_initial : table1 b64; h_transitions : table2 b64; h_emissions : table2 b64;
  h_maxprob : option b64; h_probs : list b64; h_keys : list key }.

(** include/status.h:35-45, enumerator values. *)
Definition HIDDENMARKOVMODEL_UNINITIALIZED : Z := 7.
Definition HIDDENMARKOVMODEL_VITERBI_READY : Z := 8.

(** [getInt()] of every element of a vector. *)
Fixpoint read_ints (l : list (option Z)) : outcome (list Z) :=
  match l with
  | [] => Ret []
  | v :: l' => do i <- read_int v; do is <- read_ints l'; Ret (i :: is)
  end.

(** src/hiddenmarkovmodel.cc:35-84, constructor from pitch-class observations. The map arguments are given with int
    keys; copying them entry by entry into [unordered_map]s keeps every lookup. *)
Definition hmm_of_pcs (observations : list pitchclass) (states : list key)
    (initial : table1 b64) (transitions emissions : table2 b64) : outcome hmm :=
  do obs <- read_ints (map pcint observations);
  do sts <- read_ints (map kint states);
  Ret (mkHmm HIDDENMARKOVMODEL_UNINITIALIZED obs sts initial transitions emissions None [] []).

(** src/hiddenmarkovmodel.cc:86-135, constructor from key observations. *)
Definition hmm_of_keys (observations states : list key)
    (initial : table1 b64) (transitions emissions : table2 b64) : outcome hmm :=
  do obs <- read_ints (map kint observations);
  do sts <- read_ints (map kint states);
  Ret (mkHmm HIDDENMARKOVMODEL_UNINITIALIZED obs sts initial transitions emissions None [] []).

(** src/hiddenmarkovmodel.cc:183-248, runViterbi as a method: the new object. The object after an exception is not
    modelled. *)
Definition run_viterbi (log10 : b64 -> b64) (iter : layer b64 -> list (Z * node b64)) (h : hmm) : outcome hmm :=
  do (ks, mp, pr) <- viterbi b64 fgt fadd fmul log10 fninf fzero (h_states h) (h_initial h) (h_transitions h)
                       (h_emissions h) iter (h_obs h) (h_keys h);
  Ret (mkHmm HIDDENMARKOVMODEL_VITERBI_READY (h_obs h) (h_states h) (h_initial h) (h_transitions h) (h_emissions h)
         (Some mp) pr ks).
