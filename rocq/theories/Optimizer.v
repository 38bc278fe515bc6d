(** Model of the random generator and the evolver of the optimizer (optimizer/generator.py, optimizer/evolver.py). Definitions only.
    Randomness: every call of the random module takes the next number of a list of integers; a choice among n values is that number
    modulo n and [random.random()] is that number modulo 2^53, over 2^53. A run that needs more numbers than the list holds is [Starved].
    Log messages and the warnings of [insert_new] are left out. *)
From Flocq Require Import IEEE754.BinarySingleNaN.
From Verif Require Import Base Fp Text Py KeyProfile Options OptTables.

(** The two dictionaries with the ratios, and the counters of optimizer/generator.py:11-12 and optimizer/evolver.py:12-13. *)
Record world := mkWorld {
  w_kp : dict; w_kt : dict; w_ratio : list (string * b64);
  g_kp_id : Z; g_kt_id : Z; e_kp_id : Z; e_kt_id : Z }.
Definition initial_world : world := mkWorld initial_profiles initial_transitions initial_ratios 0 0 0 0.

(** What a run does: it returns, raises, or would need more random numbers. *)
Inductive run (A : Type) := Done (a : A) (w : world) (ds : list Z) | Fails (e : pyexn) | Starved.
Arguments Done {A} _ _ _. Arguments Fails {A} _. Arguments Starved {A}.
Definition prog (A : Type) := world -> list Z -> run A.
Definition ret {A} (a : A) : prog A := fun w ds => Done a w ds.
Definition seq_run {A B} (c : prog A) (k : A -> prog B) : prog B :=
  fun w ds => match c w ds with Done a w' ds' => k a w' ds' | Fails e => Fails e | Starved => Starved end.
Notation "'run_do' x <- c ; k" := (seq_run c (fun x => k)) (at level 200, x pattern, c at level 100, k at level 200, right associativity).
Definition lift {A} (c : py A) : prog A := fun w ds => match c with Returns a => Done a w ds | Raises e => Fails e end.
Definition change (f : world -> world) : prog unit := fun w ds => Done tt (f w) ds.
Definition look {A} (f : world -> A) : prog A := fun w ds => Done (f w) w ds.

(** ** The random module *)
(** [random.randrange(n)]. *)
Definition randrange (n : Z) : prog Z := fun w ds =>
  if n <=? 0 then Fails ValueError else match ds with [] => Starved | d :: ds' => Done (d mod n) w ds' end.
(** [random.choice(l)]. *)
Definition choice {A} (l : list A) : prog A := fun w ds =>
  match l with
  | [] => Fails IndexError
  | a :: _ => match ds with [] => Starved | d :: ds' => Done (nth (Z.to_nat (d mod Z.of_nat (length l))) l a) w ds' end
  end.
(** [random.random()]. *)
Definition unit_float (d : Z) : b64 := rat64 (d mod 2 ^ 53) (2 ^ 53).
Definition random : prog b64 := fun w ds => match ds with [] => Starved | d :: ds' => Done (unit_float d) w ds' end.
(** [random.uniform(a, b)], which is a + (b - a) * random(). *)
Definition uniform (a b : b64) : prog b64 := run_do r <- random; ret (fadd a (fmul (fsub b a) r)).

(** [int(x)] of a finite float. *)
Definition py_int (x : b64) : Z := Btrunc x.

(** ** Generator *)
(** [for idx in group: r = random.randrange(bound); a[idx] = r], as in optimizer/generator.py:41-44, 66-69, 140-142. *)
Fixpoint fill_group (bound : Z) (idxs : list nat) (a : list Z) : prog (list Z) :=
  match idxs with
  | [] => ret a
  | i :: idxs' => run_do r <- randrange bound; fill_group bound idxs' (replace_nth a i r)
  end.
(** [for group, h in groups: ...], as in optimizer/generator.py:40-44, 65-69, 139-143: the bound is int(maximum / 2**h). *)
Fixpoint fill_groups (maximum : Z) (groups : list (list nat * Z)) (a : list Z) : prog (list Z) :=
  match groups with
  | [] => ret a
  | (idxs, h) :: groups' =>
      run_do q <- lift (int_div maximum (2 ^ h));
      run_do a' <- fill_group (py_int q) idxs a;
      fill_groups maximum groups' a'
  end.
Definition zsum (l : list Z) : Z := fold_left Z.add l 0.
(** [s = sum(l); [x/s for x in l]], as in optimizer/generator.py:45-46, 70-71, 144-145. *)
Definition normalise (l : list Z) : py table := pymap (fun x => int_div x (zsum l)) l.
(** A list of groups as [enumerate] numbers it. *)
Definition numbered (groups : list (list nat)) : list (list nat * Z) := combine groups (zseq (length groups)).

(** optimizer/generator.py:32-39. *)
Definition major_groups : list (list nat * Z) := [([0; 7], 0%Z); ([2; 4; 5; 9; 11], 1%Z); ([1; 3; 6; 8; 10], 2%Z)]%nat.
(** optimizer/generator.py:27-48, generate_major_key_profile. *)
Definition generate_major (maximum : Z) : prog table :=
  run_do a <- fill_groups maximum major_groups (repeat 0 12); lift (normalise a).
(** optimizer/generator.py:55-64. *)
Definition minor_groups : list (list nat * Z) := [([0; 7], 0%Z); ([2; 3; 5; 8; 11], 1%Z); ([9; 10], 2%Z); ([1; 4; 6], 3%Z)]%nat.
(** optimizer/generator.py:50-73, generate_minor_key_profile. *)
Definition generate_minor (maximum : Z) : prog table :=
  run_do a <- fill_groups maximum minor_groups (repeat 0 12); lift (normalise a).
(** optimizer/key_profiles.py:149, optimizer/key_transitions.py:105, 109: entering a table or a ratio. *)
Definition enter_profile (name : string) (kp : table) (w : world) : world :=
  mkWorld (fst (insert_profile (w_kp w) name kp)) (w_kt w) (w_ratio w) (g_kp_id w) (g_kt_id w) (e_kp_id w) (e_kt_id w).
Definition enter_transition (name : string) (kt : table) (w : world) : world :=
  mkWorld (w_kp w) (fst (insert_transition (w_kt w) name kt)) (w_ratio w) (g_kp_id w) (g_kt_id w) (e_kp_id w) (e_kt_id w).
Definition enter_ratio (name : string) (r : b64) (w : world) : world :=
  mkWorld (w_kp w) (w_kt w) (assign String.eqb name r (w_ratio w)) (g_kp_id w) (g_kt_id w) (e_kp_id w) (e_kt_id w).
(** [self.kp_id += 1], [self.kt_id += 1] of the generator and of the evolver. *)
Definition next_g_kp (w : world) : world := mkWorld (w_kp w) (w_kt w) (w_ratio w) (g_kp_id w + 1) (g_kt_id w) (e_kp_id w) (e_kt_id w).
Definition next_g_kt (w : world) : world := mkWorld (w_kp w) (w_kt w) (w_ratio w) (g_kp_id w) (g_kt_id w + 1) (e_kp_id w) (e_kt_id w).
Definition next_e_kp (w : world) : world := mkWorld (w_kp w) (w_kt w) (w_ratio w) (g_kp_id w) (g_kt_id w) (e_kp_id w + 1) (e_kt_id w).
Definition next_e_kt (w : world) : world := mkWorld (w_kp w) (w_kt w) (w_ratio w) (g_kp_id w) (g_kt_id w) (e_kp_id w) (e_kt_id w + 1).
(** optimizer/generator.py:15-25, generate_key_profile. *)
Definition generate_key_profile (maximum : Z) : prog string :=
  run_do major <- generate_major maximum;
  run_do minor <- generate_minor maximum;
  run_do id <- look g_kp_id;
  let name := ("kp" ++ format_int id)%string in
  run_do _ <- change next_g_kp;
  run_do _ <- change (enter_profile name (major ++ minor));
  ret name.

(** optimizer/generator.py:99-109, 128-138. *)
Definition key_groups : list (list nat) :=
  [[0]; [5; 7; 12; 21]; [14; 16; 17; 19]; [2; 3; 9; 10]; [4; 8; 22; 23]; [1; 11]; [15; 18]; [13; 20]; [6]]%nat.
(** optimizer/generator.py:122-147, generate_stochastic_key_transition. *)
Definition generate_stochastic (maximum : Z) : prog table :=
  run_do a <- fill_groups maximum (numbered key_groups) (repeat 0 24); lift (normalise a).

Section WithPow.
(** [x ** n] of a float and an integer is the C function pow; an infinite result raises OverflowError. *)
Variable pow : b64 -> Z -> b64.
Definition power (x : b64) (n : Z) : py b64 :=
  let r := pow x n in if is_finite x && negb (is_finite r) then Raises OverflowError else Returns r.

(** optimizer/generator.py:110-115. *)
Fixpoint fill_powers (ratio : b64) (number_of_groups : Z) (groups : list (list nat * Z)) (a : table) : py table :=
  match groups with
  | [] => Returns a
  | (keys, id) :: groups' =>
      py_do r <- power ratio (number_of_groups - id);
      fill_powers ratio number_of_groups groups' (fold_left (fun a k => replace_nth a k r) keys a)
  end.
(** optimizer/generator.py:93-119, generate_geometric_key_transition. The zeros of the initial list are all replaced. *)
Definition generate_geometric (ratio : b64) : py table :=
  py_do a <- fill_powers ratio (Z.of_nat (length key_groups) - 1) (numbered key_groups) (repeat fzero 24);
  pymap (fun x => float_div x (py_sum a)) a.
(** optimizer/generator.py:75-90, generate_key_transition. *)
Definition kt_types : list bool := [true; true; true; true; true; true; true; true; true; false].
Definition generate_key_transition (maximum : Z) : prog string :=
  run_do geometric <- choice kt_types;
  if geometric : bool then
    run_do r <- random;
    let ratio := fadd (fmul r (py_float 48)) (py_float 2) in
    run_do kt <- lift (generate_geometric ratio);
    run_do id <- look g_kt_id;
    let name := ("ktg" ++ format_int id)%string in
    run_do _ <- change (enter_ratio name ratio);
    run_do _ <- change next_g_kt;
    run_do _ <- change (enter_transition name kt);
    ret name
  else
    run_do kt <- generate_stochastic maximum;
    run_do id <- look g_kt_id;
    let name := ("kts" ++ format_int id)%string in
    run_do _ <- change next_g_kt;
    run_do _ <- change (enter_transition name kt);
    ret name.

(** ** Evolver *)
(** [int(len(l) * share)], as in optimizer/evolver.py:19, 22, 26, 94, 97. *)
Definition share_of {A} (l : list A) (share : b64) : nat := Z.to_nat (py_int (fmul (py_float (Z.of_nat (length l))) share)).
(** [while len(random_old) < count: ...], optimizer/evolver.py:33-38 and 104-109: names from the rest of the population. *)
Fixpoint pick_old (pool kept : list string) (count : nat) (old : list string) (w : world) (ds : list Z) : run (list string) :=
  if (count <=? length old)%nat then Done old w ds
  else match pool with
  | [] => Fails IndexError
  | a :: _ =>
      match ds with
      | [] => Starved
      | d :: ds' =>
          let k := nth (Z.to_nat (d mod Z.of_nat (length pool))) pool a in
          pick_old pool kept count (if negb (elem k old) && negb (elem k kept) then old ++ [k] else old) w ds'
      end
  end.
(** [key_profiles.get(name)] where a missing entry ([None]) makes the next operation raise TypeError. *)
Definition fetch (d : dict) (name : string) : py table :=
  match assoc String.eqb name d with Some l => Returns l | None => Raises TypeError end.
(** optimizer/evolver.py:49-55: the child of two parents. *)
Definition make_child (major_parent minor_parent : string) : prog string :=
  run_do id <- look e_kp_id;
  let child_name := ("kpc" ++ format_int id)%string in
  run_do _ <- change next_e_kp;
  run_do d <- look w_kp;
  run_do major_kp <- lift (fetch d major_parent);
  run_do minor_kp <- lift (fetch d minor_parent);
  run_do _ <- change (enter_profile child_name (firstn 12 major_kp ++ skipn 12 minor_kp));
  ret child_name.
(** [while len(children) < count: ...], optimizer/evolver.py:42-56. *)
Fixpoint cross (parents : list string) (count : nat) (children : list string) (w : world) (ds : list Z) : run (list string) :=
  if (count <=? length children)%nat then Done children w ds
  else match parents with
  | [] => Fails IndexError
  | a :: _ =>
      match ds with
      | d1 :: d2 :: ds' =>
          let major_parent := nth (Z.to_nat (d1 mod Z.of_nat (length parents))) parents a in
          let minor_parent := nth (Z.to_nat (d2 mod Z.of_nat (length parents))) parents a in
          if (major_parent =? minor_parent)%string then cross parents count children w ds'
          else match make_child major_parent minor_parent w ds' with
               | Done c w' _ => cross parents count (children ++ [c]) w' ds'
               | Fails e => Fails e
               | Starved => Starved
               end
      | _ => Starved
      end
  end.
(** [random.randint(a, b)] twice until the two differ, optimizer/evolver.py:69-73 and 131-135. *)
Fixpoint two_indices (low high : Z) (w : world) (ds : list Z) : run (nat * nat) :=
  match ds with
  | d1 :: d2 :: ds' =>
      let i := low + d1 mod (high - low + 1) in
      let j := low + d2 mod (high - low + 1) in
      if i =? j then two_indices low high w ds' else Done (Z.to_nat i, Z.to_nat j) w ds'
  | _ => Starved
  end.
(** [l[i]] for an index that is not negative. *)
Definition item {A} (l : list A) (i : nat) : py A := match nth_error l i with Some a => Returns a | None => Raises IndexError end.
(** optimizer/evolver.py:74-78 and 136-140: a tenth of one value goes to another one. *)
Definition move_delta (l : table) (ratio : b64) (i j : nat) : py table :=
  py_do x <- item l i;
  py_do _ <- item l j;
  let delta := fmul x ratio in
  let l1 := replace_nth l i (fsub x delta) in
  py_do y <- item l1 j;
  Returns (replace_nth l1 j (fadd y delta)).
(** optimizer/evolver.py:15: the default arguments. *)
Definition mutation_ratio : b64 := dec 1 1.
Definition kp_mutation_prob : b64 := dec 5 1.
(** optimizer/evolver.py:63-80: one profile, mutated or not. *)
Definition mutate_profile (name : string) : prog string :=
  run_do r <- random;
  if fgt kp_mutation_prob r then
    run_do id <- look e_kp_id;
    let mutation_name := ("kpm" ++ format_int id)%string in
    run_do _ <- change next_e_kp;
    run_do d <- look w_kp;
    run_do range <- choice [(0, 11); (12, 23)];
    run_do ij <- two_indices (fst range) (snd range);
    run_do kp <- lift (fetch d name);
    run_do kp' <- lift (move_delta kp mutation_ratio (fst ij) (snd ij));
    run_do _ <- change (enter_profile mutation_name kp');
    ret mutation_name
  else ret name.
Fixpoint each {A B} (f : A -> prog B) (l : list A) : prog (list B) :=
  match l with [] => ret [] | x :: l' => run_do y <- f x; run_do ys <- each f l'; ret (y :: ys) end.
(** [while len(l) > len(new): new.append(...)], optimizer/evolver.py:83-85, 145-147. *)
Fixpoint repeat_run {A} (n : nat) (c : prog A) : prog (list A) :=
  match n with O => ret [] | S n' => run_do x <- c; run_do xs <- repeat_run n' c; ret (x :: xs) end.
(** optimizer/evolver.py:15-87, evolve_key_profiles with its default arguments. *)
Definition evolve_key_profiles (maximum : Z) (kps : list string) : prog (list string) :=
  let retain_length := share_of kps (dec 2 1) in
  let random_retain_length := share_of kps (dec 2 1) in
  let crossover_length := share_of kps (dec 3 1) in
  let kept := firstn retain_length kps in
  run_do old <- pick_old (skipn retain_length kps) kept random_retain_length [];
  let parents := kept ++ old in
  run_do children <- cross parents crossover_length [];
  run_do mutated <- each mutate_profile (parents ++ children);
  run_do fresh <- repeat_run (length kps - length mutated) (generate_key_profile maximum);
  ret (mutated ++ fresh).

(** [name.startswith(p)]. *)
Definition starts_with (p name : string) : bool := String.prefix p name.
(** optimizer/evolver.py:114-142: one transition, mutated or not. [ratio - ratio*mutation_ratio] raises TypeError on [None]. *)
Definition kt_mutation_prob : b64 := py_float 1.
Definition mutate_transition (name : string) : prog string :=
  if starts_with "ktg" name then
    run_do r <- random;
    if fgt kt_mutation_prob r then
      run_do id <- look e_kt_id;
      let mutation_name := ("ktgm" ++ format_int id)%string in
      run_do _ <- change next_e_kt;
      run_do rd <- look w_ratio;
      run_do ratio <- lift (match assoc String.eqb name rd with Some x => Returns x | None => Raises TypeError end);
      run_do new_ratio <- uniform (fsub ratio (fmul ratio mutation_ratio)) (fadd ratio (fmul ratio mutation_ratio));
      run_do kt <- lift (generate_geometric new_ratio);
      run_do _ <- change (enter_ratio mutation_name new_ratio);
      run_do _ <- change (enter_transition mutation_name kt);
      ret mutation_name
    else ret name
  else if starts_with "kts" name then
    run_do r <- random;
    if fgt kt_mutation_prob r then
      run_do id <- look e_kt_id;
      let mutation_name := ("ktsm" ++ format_int id)%string in
      run_do _ <- change next_e_kt;
      run_do d <- look w_kt;
      run_do ij <- two_indices 0 23;
      run_do kt <- lift (fetch d name);
      run_do kt' <- lift (move_delta kt mutation_ratio (fst ij) (snd ij));
      run_do _ <- change (enter_transition mutation_name kt');
      ret mutation_name
    else ret name
  else ret name.
(** optimizer/evolver.py:89-149, evolve_key_transitions with its default arguments. *)
Definition evolve_key_transitions (maximum : Z) (kts : list string) : prog (list string) :=
  let retain_length := share_of kts (dec 2 1) in
  let random_retain_length := share_of kts (dec 2 1) in
  let kept := firstn retain_length kts in
  run_do old <- pick_old (skipn retain_length kts) kept random_retain_length [];
  run_do mutated <- each mutate_transition (kept ++ old);
  run_do fresh <- repeat_run (length kts - length mutated) (generate_key_transition maximum);
  ret (mutated ++ fresh).
End WithPow.
