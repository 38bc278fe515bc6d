(** Model of nnls-chroma-1.1/nnls.c, the method of Lawson and Hanson for non-negative least squares. Definitions only. *)
From Verif Require Import Base.
Open Scope Z_scope.

(** The arithmetic is a parameter: single precision for the program, real numbers for what it approximates. An expression in which the
    double literals of the source make the compiler compute in double precision is one operation here:
    [inv x] = 1. / x, [hyp x] = sqrt(x * x + 1.), [root x] = sqrt(x), [mul_root c x] = c * sqrt(x), [grown u x] = u + x * .01. *)
Record arith := mkArith {
  num : Type; zero : num; one : num; two : num;
  add : num -> num -> num; sub : num -> num -> num; mul : num -> num -> num; div : num -> num -> num; opp : num -> num;
  inv : num -> num; hyp : num -> num; root : num -> num; mul_root : num -> num -> num; grown : num -> num -> num;
  gtb : num -> num -> bool; geb : num -> num -> bool; leb : num -> num -> bool; eqb : num -> num -> bool }.
Arguments zero {_}. Arguments one {_}. Arguments two {_}. Arguments add {_} _ _. Arguments sub {_} _ _. Arguments mul {_} _ _. Arguments div {_} _ _. Arguments opp {_} _.
Arguments inv {_} _. Arguments hyp {_} _. Arguments root {_} _. Arguments mul_root {_} _ _. Arguments grown {_} _ _.
Arguments gtb {_} _ _. Arguments geb {_} _ _. Arguments leb {_} _ _. Arguments eqb {_} _ _.

(** An array of C: its size, and its elements unless they are indeterminate. *)
Record array (A : Type) := mkArray { size : Z; cell : Z -> option A }.
Arguments mkArray {A} _ _. Arguments size {A} _. Arguments cell {A} _ _.
Definition rd {A} (a : array A) (i : Z) : outcome A :=
  if (0 <=? i) && (i <? size a) then match cell a i with Some v => Ret v | None => Undef UninitRead end else Undef OutOfBounds.
Definition wr {A} (a : array A) (i : Z) (v : A) : outcome (array A) :=
  if (0 <=? i) && (i <? size a) then Ret (mkArray (size a) (fun k => if k =? i then Some v else cell a k)) else Undef OutOfBounds.
Definition of_list {A} (l : list A) : array A := mkArray (Z.of_nat (length l)) (fun i => nth_error l (Z.to_nat i)).
Definition fresh {A} (n : Z) : array A := mkArray n (fun _ => None).
Definition used {A} (v : option A) : outcome A := match v with Some x => Ret x | None => Undef UninitRead end.
(** [for (i = lo; i <= hi; ++i)]. *)
Definition zrange (lo hi : Z) : list Z := map (fun k => lo + Z.of_nat k) (seq 0 (Z.to_nat (hi - lo + 1))).
Fixpoint each {S} (body : S -> Z -> outcome S) (l : list Z) (s : S) : outcome S :=
  match l with [] => Ret s | i :: l' => do s' <- body s i; each body l' s' end.
Definition loop {S} (lo hi : Z) (body : S -> Z -> outcome S) (s : S) : outcome S := each body (zrange lo hi) s.

Section Method.
  Context {A : arith}.
  Notation num := (num A).
  (** nnls.c:16-17. *)
  Definition absn (x : num) : num := if geb x zero then x else opp x.
  Definition maxn (a b : num) : num := if geb a b then a else b.
  (** nnls.c:19-24. *)
  Definition d_sign (a b : num) : num := let x := if geb a zero then a else opp a in if geb b zero then x else opp x.
  (** nnls.c:33-67: cterm, sterm and sig. *)
  Definition g1 (a b : num) : num * num * num :=
    if gtb (absn a) (absn b) then
      let xr := div b a in let yr := hyp xr in let cterm := d_sign (inv yr) a in (cterm, mul cterm xr, mul (absn a) yr)
    else if negb (eqb b zero) then
      let xr := div a b in let yr := hyp xr in let sterm := d_sign (inv yr) b in (mul sterm xr, sterm, mul (absn b) yr)
    else (zero, one, zero).
  (** nnls.c:69-199. The vectors u and c lie in a state [S] and are addressed by their offsets from u and c__ as passed by the caller. *)
  Section Householder.
    Context {S : Type} (rdu : S -> Z -> outcome num) (wru : S -> Z -> num -> outcome S) (rdc : S -> Z -> outcome num) (wrc : S -> Z -> num -> outcome S).
    (** 106-140 in mode 1: None if it gives up, otherwise the new value of *up. *)
    Definition h12_construct (lpivot l1 m iue : Z) (p : num) (s : S) : outcome (option (S * option num)) :=
      do cl <- loop l1 m (fun cl j => do v <- rdu s ((j - 1) * iue); Ret (maxn (absn v) cl)) (absn p);
      if leb cl zero then Ret None else
      let clinv := inv cl in
      do sm <- loop l1 m (fun sm j => do v <- rdu s ((j - 1) * iue); let d := mul v clinv in Ret (add sm (mul d d))) (let d := mul p clinv in mul d d);
      let cl := mul_root cl sm in
      let cl := if leb p zero then cl else opp cl in
      do s' <- wru s ((lpivot - 1) * iue) cl;
      Ret (Some (s', Some (sub p cl))).
    (** 170-195: one vector c, which begins at i2. *)
    Definition h12_vector (l1 m iue : Z) (uv b : num) (ice incr i2 : Z) (s : S) : outcome S :=
      do c2 <- rdc s (i2 - 1);
      do (sm, _) <- loop l1 m (fun '(sm, i3) i => do c <- rdc s (i3 - 1); do v <- rdu s ((i - 1) * iue); Ret (add sm (mul c v), i3 + ice)) (mul c2 uv, i2 + incr);
      if eqb sm zero then Ret s else
      let sm := mul sm b in
      do s <- wrc s (i2 - 1) (add c2 (mul sm uv));
      do (s, _) <- loop l1 m (fun '(s, i4) i => do c <- rdc s (i4 - 1); do v <- rdu s ((i - 1) * iue); do s <- wrc s (i4 - 1) (add c (mul sm v)); Ret (s, i4 + ice)) (s, i2 + incr);
      Ret s.
    Definition h12 (mode lpivot l1 m iue : Z) (up : option num) (ice icv ncv : Z) (s : S) : outcome (S * option num) :=
      if (0 >=? lpivot) || (lpivot >=? l1) || (l1 >? m) then Ret (s, up) else
      do p <- rdu s ((lpivot - 1) * iue);
      do r <- (if mode =? 2 then Ret (if leb (absn p) zero then None else Some (s, up)) else h12_construct lpivot l1 m iue p s);
      match r with
      | None => Ret (s, up)
      | Some (s, up) =>
          if ncv <=? 0 then Ret (s, up) else
          do uv <- used up;
          do q <- rdu s ((lpivot - 1) * iue);
          let b := mul uv q in
          if geb b zero then Ret (s, up) else
          let b := inv b in
          do (s, _) <- loop 1 ncv (fun '(s, i2) _ => let i2 := i2 + icv in do s <- h12_vector l1 m iue uv b ice (ice * (l1 - lpivot)) i2 s; Ret (s, i2)) (s, 1 - icv + ice * (lpivot - 1));
          Ret (s, up)
      end.
  End Householder.

  (** The variables of nnls(), 201-222. [iz2] is n throughout. *)
  Record st := mkSt { va : array num; vb : array num; vx : array num; vw : array num; vzz : array num; vidx : array Z; iter : Z; nsetp : Z; npp1 : Z; iz1 : Z; vup : option num; vmode : Z }.
  (** Where the program is; at L260 with the values of jj and i__. *)
  Inductive label := L30 | L60 | L210 | L260 (jj i : Z) | L330 | L350.
  (** &a[j * a_dim1 + 1] and a[l + j * a_dim1], where a has been shifted by a_dim1 + 1 (231-238). That the shifted
      pointers point before their arrays, which C does not allow either, is not modelled. *)
  Definition col (mda j : Z) : Z := (j - 1) * mda.
  Definition rda (mda : Z) (a : array num) (l j : Z) : outcome num := rd a (col mda j + (l - 1)).
  Definition wra (mda : Z) (a : array num) (l j : Z) (v : num) : outcome (array num) := wr a (col mda j + (l - 1)) v.
  (** 263-286, L30. *)
  Definition step30 (mda m n : Z) (s : st) : outcome (label * st) :=
    if (iz1 s >? n) || (nsetp s >=? m) then Ret (L350, s) else
    do w <- loop (iz1 s) n (fun w iz =>
      do j <- rd (vidx s) (iz - 1);
      do sm <- loop (npp1 s) m (fun sm l => do p <- rda mda (va s) l j; do q <- rd (vb s) (l - 1); Ret (add sm (mul p q))) zero;
      wr w (j - 1) sm) (vw s);
    Ret (L60, mkSt (va s) (vb s) (vx s) w (vzz s) (vidx s) (iter s) (nsetp s) (npp1 s) (iz1 s) (vup s) (vmode s)).
  (** 289-298: wmax and izmax. *)
  Definition largest (n : Z) (s : st) : outcome (num * option Z) :=
    loop (iz1 s) n (fun '(wmax, izmax) iz => do j <- rd (vidx s) (iz - 1); do v <- rd (vw s) (j - 1); if gtb v wmax then Ret (v, Some iz) else Ret (wmax, izmax)) (zero, None).
  (** 565-579, L400: the triangular system. [jj] is not used before it has been assigned. *)
  Definition solve (mda : Z) (a : array num) (idx : array Z) (nsetp : Z) (zz : array num) : outcome (array num) :=
    do (zz, _) <- loop 1 nsetp (fun '(zz, jj) l =>
      let ip := nsetp + 1 - l in
      do zz <- (if l =? 1 then Ret zz else
        loop 1 ip (fun zz ii => do z <- rd zz (ii - 1); do p <- rda mda a ii jj; do q <- rd zz (ip + 1 - 1); wr zz (ii - 1) (sub z (mul p q))) zz);
      do jj <- rd idx (ip - 1);
      do z <- rd zz (ip - 1); do d <- rda mda a ip jj;
      do zz <- wr zz (ip - 1) (div z d); Ret (zz, jj)) (zz, 0);
    Ret zz.
  (** 336-340, 367-371, 516-520: copying the first m elements. *)
  Definition copy (m : Z) (from to : array num) : outcome (array num) := loop 1 m (fun t l => do v <- rd from (l - 1); wr t (l - 1) v) to.
  (** 318-328: the norm of the part of column j above the new row. *)
  Definition upper_norm (mda nsetp : Z) (a : array num) (j : Z) : outcome num :=
    do u <- (if nsetp =? 0 then Ret zero else loop 1 nsetp (fun u l => do d1 <- rda mda a l j; Ret (add u (mul d1 d1))) zero);
    Ret (root u).
  (** 366-404: column j = index[iz] enters the set P. *)
  Definition enter (mda m n : Z) (s : st) (iz j : Z) (a zz : array num) (up : option num) : outcome (label * st) :=
    do b <- copy m zz (vb s);
    do first <- rd (vidx s) (iz1 s - 1);
    do idx <- wr (vidx s) (iz - 1) first;
    do idx <- wr idx (iz1 s - 1) j;
    let iz1' := iz1 s + 1 in let nsetp' := npp1 s in let npp1' := npp1 s + 1 in
    do (a, up) <- loop iz1' n (fun '(a, up) jz =>
      do jj <- rd idx (jz - 1);
      h12 (fun a k => rd a (col mda j + k)) (fun a k v => wr a (col mda j + k) v) (fun a k => rd a (col mda jj + k)) (fun a k v => wr a (col mda jj + k) v)
        2 nsetp' npp1' m 1 up 1 mda 1 a) (a, up);
    do a <- (if nsetp' =? m then Ret a else loop npp1' m (fun a l => wra mda a l j zero) a);
    do w <- wr (vw s) (j - 1) zero;
    do zz <- solve mda a idx nsetp' zz;
    Ret (L210, mkSt a b (vx s) w zz idx (iter s) nsetp' npp1' iz1' up (vmode s)).
  (** 288-404, L60. The vector [dummy] of the first call has ncv = 0, so that it is not accessed. *)
  Definition step60 (mda m n : Z) (s : st) : outcome (label * st) :=
    do (wmax, izmax) <- largest n s;
    if leb wmax zero then Ret (L350, s) else
    do iz <- used izmax;
    do j <- rd (vidx s) (iz - 1);
    do asave <- rda mda (va s) (npp1 s) j;
    do (a, up) <- h12 (fun a k => rd a (col mda j + k)) (fun a k v => wr a (col mda j + k) v) (fun _ _ => Undef OutOfBounds) (fun _ _ _ => Undef OutOfBounds)
                     1 (npp1 s) (npp1 s + 1) m 1 (vup s) 1 1 0 (va s);
    do unorm <- upper_norm mda (nsetp s) a j;
    do d1 <- rda mda a (npp1 s) j;
    do r <- (if gtb (sub (grown unorm (absn d1)) unorm) zero then
               do zz <- copy m (vb s) (vzz s);
               do ((a, zz), up) <- h12 (fun s k => rd (fst s) (col mda j + k)) (fun s k v => do a <- wr (fst s) (col mda j + k) v; Ret (a, snd s))
                                      (fun s k => rd (snd s) k) (fun s k v => do z <- wr (snd s) k v; Ret (fst s, z))
                                      2 (npp1 s) (npp1 s + 1) m 1 up 1 1 1 (a, zz);
               do z <- rd zz (npp1 s - 1);
               do d <- rda mda a (npp1 s) j;
               Ret (gtb (div z d) zero, a, zz, up)
             else Ret (false, a, vzz s, up));
    let '(accept, a, zz, up) := r in
    if accept then enter mda m n s iz j a zz up
    else
      do a <- wra mda a (npp1 s) j asave;
      do w <- wr (vw s) (j - 1) zero;
      Ret (L60, mkSt a (vb s) (vx s) w zz (vidx s) (iter s) (nsetp s) (npp1 s) (iz1 s) up (vmode s)).
  (** 411-455, L210. *)
  Definition step210 (n : Z) (s : st) : outcome (label * st) :=
    let it := iter s + 1 in
    let s1 x mode := mkSt (va s) (vb s) x (vw s) (vzz s) (vidx s) it (nsetp s) (npp1 s) (iz1 s) (vup s) mode in
    if it >? n * 3 then Ret (L350, s1 (vx s) 3) else
    do (alpha, jj) <- loop 1 (nsetp s) (fun '(alpha, jj) ip =>
      do l <- rd (vidx s) (ip - 1); do z <- rd (vzz s) (ip - 1);
      if leb z zero then
        do v <- rd (vx s) (l - 1); let t := div (opp v) (sub z v) in if gtb alpha t then Ret (t, Some ip) else Ret (alpha, jj)
      else Ret (alpha, jj)) (two, None);
    if eqb alpha two then Ret (L330, s1 (vx s) (vmode s)) else
    do x <- loop 1 (nsetp s) (fun x ip => do l <- rd (vidx s) (ip - 1); do v <- rd x (l - 1); do z <- rd (vzz s) (ip - 1); wr x (l - 1) (add v (mul alpha (sub z v)))) (vx s);
    do jj <- used jj;
    do i <- rd (vidx s) (jj - 1);
    Ret (L260 jj i, s1 x (vmode s)).
  (** 463-488: rows j-1 and j are rotated. *)
  Definition rotate_rows (mda n : Z) (j : Z) (t : array num * array num * array Z) : outcome (array num * array num * array Z) :=
    let '(a, b, idx) := t in
    do ii <- rd idx (j - 1);
    do idx <- wr idx (j - 1 - 1) ii;
    do p <- rda mda a (j - 1) ii; do q <- rda mda a j ii;
    let '(cc, ss, sig) := g1 p q in
    do a <- wra mda a (j - 1) ii sig;
    do a <- wra mda a j ii zero;
    do a <- loop 1 n (fun a l => if l =? ii then Ret a else
      do temp <- rda mda a (j - 1) l;
      do v <- rda mda a j l;
      do a <- wra mda a (j - 1) l (add (mul cc temp) (mul ss v));
      do v <- rda mda a j l;
      wra mda a j l (add (mul (opp ss) temp) (mul cc v))) a;
    do temp <- rd b (j - 1 - 1);
    do v <- rd b (j - 1);
    do b <- wr b (j - 1 - 1) (add (mul cc temp) (mul ss v));
    do v <- rd b (j - 1);
    do b <- wr b (j - 1) (add (mul (opp ss) temp) (mul cc v));
    Ret (a, b, idx).
  (** 505-512: the first coefficient of the set P that is not positive. *)
  Fixpoint first_infeasible (x : array num) (idx : array Z) (l : list Z) : outcome (option (Z * Z)) :=
    match l with
    | [] => Ret None
    | jj :: l' => do i <- rd idx (jj - 1); do v <- rd x (i - 1); if leb v zero then Ret (Some (jj, i)) else first_infeasible x idx l'
    end.
  (** 456-524, L260. *)
  Definition step260 (mda m n : Z) (jj i : Z) (s : st) : outcome (label * st) :=
    do x <- wr (vx s) (i - 1) zero;
    do (a, b, idx) <- (if jj =? nsetp s then Ret (va s, vb s, vidx s) else loop (jj + 1) (nsetp s) (fun t j => rotate_rows mda n j t) (va s, vb s, vidx s));
    let npp1' := nsetp s in let nsetp' := nsetp s - 1 in let iz1' := iz1 s - 1 in
    do idx <- wr idx (iz1' - 1) i;
    do r <- first_infeasible x idx (zrange 1 nsetp');
    match r with
    | Some (jj, i) => Ret (L260 jj i, mkSt a b x (vw s) (vzz s) idx (iter s) nsetp' npp1' iz1' (vup s) (vmode s))
    | None =>
        do zz <- copy m b (vzz s);
        do zz <- solve mda a idx nsetp' zz;
        Ret (L210, mkSt a b x (vw s) zz idx (iter s) nsetp' npp1' iz1' (vup s) (vmode s))
    end.
  (** 527-535, L330. *)
  Definition step330 (s : st) : outcome (label * st) :=
    do x <- loop 1 (nsetp s) (fun x ip => do i <- rd (vidx s) (ip - 1); do z <- rd (vzz s) (ip - 1); wr x (i - 1) z) (vx s);
    Ret (L30, mkSt (va s) (vb s) x (vw s) (vzz s) (vidx s) (iter s) (nsetp s) (npp1 s) (iz1 s) (vup s) (vmode s)).
  (** 542-560, L350: the norm of the residual, and the final state. *)
  Definition finish (m n : Z) (s : st) : outcome (num * st) :=
    do r <- (if npp1 s <=? m then
               do sm <- loop (npp1 s) m (fun sm i => do d1 <- rd (vb s) (i - 1); Ret (add sm (mul d1 d1))) zero; Ret (sm, vw s)
             else do w <- loop 1 n (fun w j => wr w (j - 1) zero) (vw s); Ret (zero, w));
    let '(sm, w) := r in
    Ret (root sm, mkSt (va s) (vb s) (vx s) w (vzz s) (vidx s) (iter s) (nsetp s) (npp1 s) (iz1 s) (vup s) (vmode s)).
  Definition step (mda m n : Z) (at_ : label) (s : st) : outcome (label * st) :=
    match at_ with
    | L30 => step30 mda m n s
    | L60 => step60 mda m n s
    | L210 => step210 n s
    | L260 jj i => step260 mda m n jj i s
    | L330 => step330 s
    | L350 => Ret (L350, s)
    end.
  (** At most [fuel] jumps; None if that is not enough. *)
  Fixpoint run (mda m n : Z) (fuel : nat) (at_ : label) (s : st) : option (outcome (num * st)) :=
    match at_ with
    | L350 => Some (finish m n s)
    | _ => match fuel with
           | O => None
           | S f => match step mda m n at_ s with Ret (l, s') => run mda m n f l s' | Throws e => Some (Throws e) | Undef u => Some (Undef u) end
           end
    end.
  (** What the caller gets: mode, x, rnorm, and the other arrays as they are left. *)
  Record result := mkRes { r_mode : Z; r_x : array num; r_norm : option num; r_w : array num; r_a : array num; r_b : array num }.
  (** 249-255: x = 0 and index = 1, ..., n. *)
  Definition initial (n : Z) (x : array num) (index : array Z) : outcome (array num * array Z) :=
    loop 1 n (fun '(x, idx) i => do x <- wr x (i - 1) zero; do idx <- wr idx (i - 1) i; Ret (x, idx)) (x, index).
  (** nnls.c:201-262. Sizes are assumed to fit an int. *)
  Definition nnls (a : array num) (mda m n : Z) (b x w zz : array num) (index : array Z) (fuel : nat) : option (outcome result) :=
    if (m <=? 0) || (n <=? 0) then Some (Ret (mkRes 2 x None w a b)) else
    match initial n x index with
    | Ret (x, idx) =>
        match run mda m n fuel L30 (mkSt a b x w zz idx 0 0 1 1 None 1) with
        | None => None
        | Some r => Some (do (norm, s) <- r; Ret (mkRes (vmode s) (vx s) (Some norm) (vw s) (va s) (vb s)))
        end
    | Throws e => Some (Throws e)
    | Undef u => Some (Undef u)
    end.
End Method.
Arguments st A : clear implicits. Arguments result A : clear implicits.
