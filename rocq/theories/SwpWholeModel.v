(* make_swp_states.cpp, the routine make_swp_states as a whole (l.218-485): diagonalisation of every two-nucleon channel
   into the arrays C (eigenvectors) and e (bin boundaries).  The per-channel functions are in SwpModel.v.
   Pairs are (uncoupled, coupled) arrays.  Not modelled: the text file written at the end (l.482). *)
From Coq Require Import Reals.
From Verif Require Import Common ArrayLib PWModel SwpModel KernelModel.
Open Scope Z_scope.

Definition pick {A} (cm : bool) (p : A * A) : A := if cm then snd p else fst p.
Definition put {A} (cm : bool) (p : A * A) (v : A) : A * A := if cm then (fst p, v) else (v, snd p).
(* mat_dim l.374, l.397; number of boundaries l.392, l.416 *)
Definition dim2 (cm : bool) (Np : nat) : nat := if cm then (2 * Np)%nat else Np.
Definition nbound (cm : bool) (Np : nat) : nat := if cm then (2 * (Np + 1))%nat else (Np + 1)%nat.

Record swp_arrays := mkswp { sw_H : list R * list R; sw_C : list R * list R; sw_e : list R * list R; sw_Eb : R }.

Section Whole.
(* LAPACKE_dspevd on the packed upper triangle (l.21-26): eigenvalues and eigenvector matrix *)
Variable diag : nat -> list R -> list R * list R.

(* l.374-456 for one channel (coupled?, number, is it 3S1?).  dspevd overwrites the packed matrix; it is not used again, the
   model leaves it. *)
Definition swp_process (Np : nat) (H0 V : list R * list R) (st : swp_arrays) (ev : event) : outcome swp_arrays :=
  let '(cm, i, flag) := ev in
  let N := dim2 cm Np in
  let offH := i * zn N * (zn N + 1) / 2 in
  let offM := (Z.to_nat i * N * N)%nat in
  do H <- full_hamiltonian (pick cm (sw_H st)) offH (pick cm H0) (pick cm V) offM N;
  do hp <- aslice H (Z.to_nat offH) (N * (N + 1) / 2)%nat;
  let '(w, z) := diag N hp in
  do '(e, z', Eb) <- swp_channel w z (pick cm (sw_e st)) (i * zn (nbound cm Np)) Np cm flag (sw_Eb st);
  do C <- ablit (pick cm (sw_C st)) offM z';
  Ok (mkswp (put cm (sw_H st) H) (put cm (sw_C st) C) (put cm (sw_e st) e) Eb).

(* one (row state, column state) of l.328-459: [evs] are the channels marked in the check lists *)
Definition swp_iter (tensor iso : bool) (n_unco n_coup : Z) (Np : nat) (H0 V : list R * list R)
    (s : list event * swp_arrays) (rc : pw * pw) : outcome (list event * swp_arrays) :=
  do evs <- swp_step tensor iso n_unco n_coup (fst s) rc;
  if (length evs =? length (fst s))%nat then Ok s
  else do st <- swp_process Np H0 V (snd s) (last evs (false, 0, false)); Ok (evs, st).

(* l.276-281 *)
Definition zero_fill (a : list R) (n : nat) : outcome (list R) := ofold (fun a i => awrite a i 0%R) (seq 0 n) a.

(* l.253-459.  C0, e0: the arrays handed in by main (uninitialised); Eb0: E_bound before the call *)
Definition make_swp_states (tensor iso : bool) (J_2N_max : Z) (Np : nat) (p : list R) (states : list pw)
    (V C0 e0 : list R * list R) (Eb0 : R) : outcome swp_arrays :=
  let nu := num_2N_unco_states tensor iso J_2N_max in
  let nc := num_2N_coup_states tensor iso J_2N_max in
  do eu <- zero_fill (fst e0) ((Np + 1) * Z.to_nat nu);
  do ec <- zero_fill (snd e0) (2 * (Np + 1) * Z.to_nat nc);
  let Hu := repeat 0%R (Np * (Np + 1) / 2 * Z.to_nat nu) in
  let Hc := repeat 0%R (2 * Np * (2 * Np + 1) / 2 * Z.to_nat nc) in
  do H0u <- free_hamiltonian Np p (repeat 0%R Np) 0;
  do H0c <- free_hamiltonian Np p (repeat 0%R (2 * Np)) 0;
  do H0c <- free_hamiltonian Np p H0c Np;
  do s <- ofold (swp_iter tensor iso nu nc Np (H0u, H0c) V)
            (flat_map (fun r => map (fun c => (r, c)) states) states) ([], mkswp (Hu, Hc) C0 (eu, ec) Eb0);
  Ok (snd s).
End Whole.
