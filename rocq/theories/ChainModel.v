(* main.cpp l.167-445: the work on one three-nucleon channel, from the list of permutation-matrix elements to the arrays of
   amplitudes.  The stages are the models of the other files, called in the order and with the arguments of main.  Every array
   main allocates with new[] is uninitialised: [mem k n] and [cmem k n] are the contents of allocation number k of n elements
   (by contract: n elements, see [allocates] in ChainSpec.v).
   Not modelled here: printing, the files written on the way, parameter walk (one parameter set), tensor_force = false. *)
From Coq Require Import Reals.
From Verif Require Import Common ArrayLib PWModel SwpModel SparseModel KernelModel PotentialModel ResolventModel SwpWholeModel
  OnShellModel FaddeevModel DetModel DenseModel AgsSpec.
Open Scope nat_scope.

Record chan_result := mkcr {
  cr_states : list pw;        (* pw_substates l.180-191 *)
  cr_V : list R * list R;     (* V_WP_unco_array, V_WP_coup_array l.307-314 *)
  cr_swp : swp_arrays;        (* C_WP, e_SWP, E_bound l.321-348 *)
  cr_os : on_shell;           (* solve_config l.359-364 *)
  cr_bu : list (Z * Z * Z) * list nat;  (* alphapq_idx_array as triples, q_com_BU_idx_array; both empty without breakup *)
  cr_ds : list nat;           (* deuteron_idx_array l.367-377 *)
  cr_sys : fsys;              (* what the solver is called with l.428-441 *)
  cr_U : list cdouble;        (* U_array *)
  cr_UBU : list cdouble }.    (* U_BU_array *)
Definition with_amplitudes (r : chan_result) (U UBU : list cdouble) : chan_result :=
  mkcr (cr_states r) (cr_V r) (cr_swp r) (cr_os r) (cr_bu r) (cr_ds r) (cr_sys r) U UBU.

(* solve_faddeev.cpp l.875-884 (and l.1184-1189, l.1396-1401): the solver uses a stored cell only through the number
   idx_alpha*Nq_WP*Np_WP + idx_q*Np_WP + idx_p, computed in size_t (modulo 2^64, so an index -1 subtracts).  A number outside
   the basis addresses an element of another row of the arrays, or none: UB here (simplification). *)
Definition cell_of_index (Nq Np i : nat) : nat * nat * nat := (i / (Nq * Np), (i mod (Nq * Np)) / Np, i mod Np).
Definition solver_cell (N Nq Np : nat) (t : Z * Z * Z) : outcome (nat * nat * nat) :=
  let i := (fst (fst t) * zn Nq * zn Np + snd (fst t) * zn Np + snd t)%Z in
  if ((0 <=? i) && (i <? zn (N * Nq * Np)))%Z then Ok (cell_of_index Nq Np (Z.to_nat i)) else UB.

Section Chain.
Variable diag : nat -> list R -> list R * list R.      (* LAPACKE_dspevd *)
Variable sort_indexes : list Z -> list nat.            (* type_defs / matrix_routines sort_indexes (std::sort) *)
Variable solve : solve_t.                              (* solve_MM *)
Variable mem : nat -> nat -> list R.
Variable cmem : nat -> nat -> list cdouble.
Variable pmem : nat -> nat -> list ptr.

(* l.173-191, l.226-248 (sorting, CSC), l.273-317 (potential), l.321-349 (wave packets, E_bound starts at 0), l.359-377
   (on-shell bins and, when asked for, breakup cells; deuterons), l.384-397 (resolvents: E_com + E_bound), l.407-419 (arrays for
   the amplitudes), solve_faddeev.cpp l.1478-1500 (block operators): everything before the solver *)
Definition channel_stages (bu iso mid : bool) (J_2N_max : Z) (Nq : nat) (q : list R) (pot : potmodel) (junk : R * R) (vg : vgrid)
    (ss : statespace) (c : Z) (inputs : list R) (res : list (Z * Z * R)) : outcome chan_result :=
  let Np := vg_Np vg in
  let p := vg_pWP vg in
  do states <- channel_slice ss c;
  let N := length states in
  let D := N * Nq * Np in
  do '(rows, cols, vals) <- apply_sort (rows_of res) (cols_of res) (vals_of res)
                              (sort_indexes (keys_col_major D (rows_of res) (cols_of res)));
  let nu := Z.to_nat (num_2N_unco_states true iso J_2N_max) in
  let nc := Z.to_nat (num_2N_coup_states true iso J_2N_max) in
  let Vu := Np * Np * nu in
  let Vc := Np * Np * 4 * nc in
  do V <- potential_matrices true iso mid J_2N_max pot junk vg (ss_states ss) (mem 0 Vu) (mem 1 Vc);
  do st <- make_swp_states diag true iso J_2N_max Np p (ss_states ss) V (mem 2 Vu, mem 3 Vc)
             (mem 4 ((Np + 1) * nu), mem 5 (2 * (Np + 1) * nc)) 0%R;
  do '(os, cells) <- find_on_shell_bins true iso bu Np Nq (fst (sw_e st)) (snd (sw_e st)) q states (sw_Eb st) inputs;
  let '(triples, ends) := match cells with Some ce => ce | None => ([], []) end in
  do tbl <- find_deuteron_channels ss;
  do d <- aread tbl (Z.to_nat c);
  let ds := map Z.to_nat d in
  do G <- all_resolvents true iso Np Nq (fst (sw_e st)) (snd (sw_e st)) q states (map (fun E => E + sw_Eb st)%R (os_E os))
            (cmem 0 (N * Np * Nq * length (os_T os)));
  do CT <- create_CT true iso J_2N_max Np states (fst (sw_C st)) (snd (sw_C st)) (mem 6 Vu) (mem 7 Vc) (pmem 0 (N * N));
  do VC <- create_VC true iso J_2N_max Np states (fst V) (snd V) (fst (sw_C st)) (snd (sw_C st)) (mem 8 Vu) (mem 9 Vc) (pmem 1 (N * N));
  do idx <- omap (solver_cell N Nq Np) triples;
  let s := mkfsys N Nq Np CT VC (mkcsc vals rows (coo_to_csr cols D)) G (os_idx os) ds bu ends idx in
  Ok (mkcr states V st os (triples, ends) ds s (cmem 1 (length (os_T os) * length ds * length ds))
        (if bu then cmem 2 (length (os_T os) * length triples) else [])).

(* l.421-441, solve_faddeev.cpp l.1562-1580: solve_dense = true (the breakup amplitudes are not touched: C45; run here without) *)
Definition channel_run (iso mid : bool) (J_2N_max : Z) (Nq : nat) (q : list R) (pot : potmodel) (junk : R * R) (vg : vgrid)
    (ss : statespace) (c : Z) (inputs : list R) (res : list (Z * Z * R)) : outcome chan_result :=
  do r <- channel_stages false iso mid J_2N_max Nq q pot junk vg ss c inputs res;
  do U <- dense_solver solve (cr_sys r) (cr_U r);
  Ok (with_amplitudes r U (cr_UBU r)).

(* l.421-441, solve_faddeev.cpp l.1544-1561: solve_dense = false, the default.  [memory] is what the solver finds in the cell
   before its arrays (FaddeevModel.v, strays). *)
Definition channel_iterate (det : list cdouble -> nat -> cdouble) (memory : strays) (bu iso mid : bool) (J_2N_max : Z) (Nq : nat) (q : list R)
    (pot : potmodel) (junk : R * R) (vg : vgrid) (ss : statespace) (c : Z) (inputs : list R) (res : list (Z * Z * R)) : outcome chan_result :=
  do r <- channel_stages bu iso mid J_2N_max Nq q pot junk vg ss c inputs res;
  do '(U, UBU) <- pade_method_solve det memory (cr_sys r) (cr_U r) (cr_UBU r);
  Ok (with_amplitudes r U UBU).
End Chain.
