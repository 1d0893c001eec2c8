(* make_swp_states.cpp: two-nucleon Hamiltonians, spectra and scattering wave-packet bins.
   double is idealised to R.  All arrays are whole allocations; [base] is the offset of the channel's part
   (the pointer arithmetic &array[chn_idx * ...] of l.383-422). *)
From Coq Require Import Reals.
From Verif Require Import Common ArrayLib PWModel.
Open Scope Z_scope.

(* a[i], a[i] = v with a signed index. *)
Definition zread {A} (a : list A) (i : Z) : outcome A := if i <? 0 then UB else aread a (Z.to_nat i).
Definition zwrite {A} (a : list A) (i : Z) (v : A) : outcome (list A) :=
  if i <? 0 then UB else awrite a (Z.to_nat i) v.
Definition zn := Z.of_nat.

(* constants.h l.19-22 *)
Definition Mp : R := (938272 / 1000)%R.
Definition Mn : R := (939565 / 1000)%R.
Definition MN : R := (0.5 * (Mp + Mn))%R.
Definition mu23 : R := (Mp * Mn / (Mn + Mp))%R.

(* construct_free_hamiltonian l.28-42, writing at H0[base..] *)
Definition free_hamiltonian (Np : nat) (p : list R) (H0 : list R) (base : nat) : outcome (list R) :=
  ofold (fun H i =>
      do p1 <- aread p i; do p2 <- aread p (i + 1);
      awrite H (base + i) ((p2 * p2 + p2 * p1 + p1 * p1) / (6 * mu23))%R)
    (seq 0 Np) H0.

(* the packed index of l.54/64: int arithmetic with C division (operands are non-negative) *)
Definition packed (N r c : Z) : Z := N * (N - 1) / 2 - (N - r) * (N - r - 1) / 2 + c.

(* a[i] += v *)
Definition zadd (a : list R) (i : Z) (v : R) : outcome (list R) :=
  do x <- zread a i; zwrite a i (x + v)%R.

(* construct_full_hamiltonian l.45-69; [baseV] is the offset of the channel's potential matrix. *)
Definition full_hamiltonian (H : list R) (base : Z) (H0 V : list R) (baseV N : nat) : outcome (list R) :=
  ofold (fun H r =>
      do h0 <- aread H0 r;
      do H <- zadd H (base + packed (zn N) (zn r) (zn r)) h0;
      ofold (fun H c =>
          do v <- aread V (baseV + r * N + c);
          zadd H (base + packed (zn N) (zn r) (zn c)) v)
        (seq r (N - r)) H)
    (seq 0 N) H.

(* reorder_coupled_eigenspectrum l.84-112. Buffers start uninitialised (None). *)
Definition reorder {A} (Np : nat) (vals vecs : list A) : outcome (list A * list A) :=
  do b <- ofold (fun (b : list (option A) * list (option A)) i =>
      do x <- aread vals (2 * i); do bv <- awrite (fst b) i (Some x);
      do y <- aread vals (2 * i + 1); do bv <- awrite bv (i + Np) (Some y);
      do bw <- ofold (fun bw j =>
          do x <- aread vecs (j * (2 * Np) + 2 * i); do bw <- awrite bw (j * (2 * Np) + i) (Some x);
          do y <- aread vecs (j * (2 * Np) + 2 * i + 1); awrite bw (j * (2 * Np) + i + Np) (Some y))
        (seq 0 (2 * Np)) (snd b);
      Ok (bv, bw))
    (seq 0 Np) (repeat None (2 * Np), repeat None (4 * Np * Np));
  do vals' <- ofold (fun a i => do o <- aread (fst b) i;
                      match o with Some x => awrite a i x | None => UB end) (seq 0 (2 * Np)) vals;
  do vecs' <- ofold (fun a ij => do o <- aread (snd b) (fst ij * (2 * Np) + snd ij);
                      match o with Some x => awrite a (fst ij * (2 * Np) + snd ij) x | None => UB end)
                (nest (2 * Np) (2 * Np)) vecs;
  Ok (vals', vecs').

Definition Rltb (x y : R) : bool := if Rlt_dec x y then true else false.

(* look_for_unphysical_bound_states l.114-143: the new E_bound, or Err (raise_error). *)
Definition count_bound (ev : list R) (E_bound : R) : nat * R :=
  fold_left (fun s x => if Rltb x 0 then (S (fst s), x) else s) ev (0%nat, E_bound).
Definition look_for_unphysical (ev : list R) (chn_3S1 : bool) (E_bound : R) : outcome R :=
  let (n, Eb) := count_bound ev E_bound in
  if (n =? 0)%nat && negb chn_3S1 then Ok Eb
  else if (n =? 1)%nat && chn_3S1 then Ok Eb
  else Err.

(* make_swp_bin_boundaries l.145-185 *)
Definition bin_boundaries (ev e : list R) (base : Z) (Np : nat) (coupled chn_3S1 : bool) : outcome (list R) :=
  let N := zn Np in
  do e <- zwrite e base 0%R;
  do e <- (if coupled then zwrite e (base + N + 1) 0%R else Ok e);
  do e <- ofold (fun e i =>
      do a <- aread ev (i + 1); do b <- aread ev i;
      do e <- zwrite e (base + zn i + 1) (0.5 * (a + b))%R;
      if coupled then
        do a <- aread ev (i + 1 + Np); do b <- aread ev (i + Np);
        zwrite e (base + zn i + 1 + N + 1) (0.5 * (a + b))%R
      else Ok e) (seq 0 (Np - 1)) e;
  do l <- zread ev (N - 1); do a <- zread e (base + N - 1); do b <- zread e (base + N - 2);
  do e <- zwrite e (base + N) (l + 0.5 * (a - b))%R;
  do e <- (if coupled then
             do l <- zread ev (2 * N - 1); do a <- zread e (base + 2 * N); do b <- zread e (base + 2 * N - 1);
             zwrite e (base + 2 * N + 1) (l + 0.5 * (a - b))%R
           else Ok e);
  if chn_3S1 then
    do l <- zread ev 0; do e <- zwrite e base l; zwrite e (base + 1) 0%R
  else Ok e.

(* One channel, l.424-455, after the eigensolver has returned the ascending spectrum [w] and the eigenvector
   matrix [z] (LAPACKE_dspevd is an argument of the model through its result). *)
Definition swp_channel (w z e : list R) (base : Z) (Np : nat) (coupled chn_3S1 : bool) (E_bound : R)
  : outcome (list R * list R * R) :=
  do Eb <- look_for_unphysical w chn_3S1 E_bound;
  do '(w', z') <- (if coupled then reorder Np w z else Ok (w, z));
  do e' <- bin_boundaries w' e base Np coupled chn_3S1;
  Ok (e', z', Eb).

(* The driver loop l.328-459: which channels are diagonalised, in order.
   State: the two check lists, as lists of the numbers already marked.
   Event: (coupled?, channel number, chn_3S1). *)
Definition L_close (r c : pw) : bool := Z.abs (L_2N r - L_2N c) <=? 2.
Definition swp_pair_ok (r c : pw) : bool :=
  (T_2N r =? T_2N c) && (J_2N r =? J_2N c) && (S_2N r =? S_2N c) && L_close r c.
Definition chn_3S1_flag (r : pw) : bool :=
  (L_2N r =? 0) && (S_2N r =? 1) && (J_2N r =? 1) && (T_2N r =? 0).
Definition event := (bool * Z * bool)%type.
Definition ev_key (e : event) : bool * Z := fst e.
Definition swp_step (tensor iso : bool) (n_unco n_coup : Z) (evs : list event) (rc : pw * pw) : outcome (list event) :=
  let (r, c) := rc in
  if swp_pair_ok r c then
    if coupled_via_L_2N tensor r c && coupled_via_T_3N iso r then Err else
    let cm := coupled_matrix tensor iso r c in
    do i <- unique_2N_idx tensor iso cm (L_2N r) (S_2N r) (J_2N r) (T_2N r);
    (* check_list_*[chn_idx] *)
    if (i <? 0) || ((if cm then n_coup else n_unco) <=? i) then UB else
    if existsb (fun e => Bool.eqb (fst (ev_key e)) cm && (snd (ev_key e) =? i)) evs then Ok evs
    else Ok (evs ++ [(cm, i, chn_3S1_flag r)])
  else Ok evs.
Definition swp_driver (tensor iso : bool) (J_2N_max : Z) (states : list pw) : outcome (list event) :=
  ofold (swp_step tensor iso (num_2N_unco_states tensor iso J_2N_max) (num_2N_coup_states tensor iso J_2N_max))
        (flat_map (fun r => map (fun c => (r, c)) states) states) [].
