(* C102: the sizes and indices of the program's arrays are computed with 32-bit ints and 64-bit size_ts. *)
From Coq Require Import String Lia.
From Verif Require Import Common ParamsModel PWModel IndexModel IndexSpec.
From Verif Require IndexProofs IndexProofs2 IndexProofs3.
Open Scope Z_scope.

(* Model spaces that fit (IndexSpec.sizes_fit): every size is computed without overflow and has the intended value. *)
Theorem C102_sizes_partial np nq na nu nc : sizes_fit np nq na nu nc ->
  let G := ints [("Np_WP", np); ("Nq_WP", nq); ("Nalpha", na); ("num_2N_unco_states", nu); ("num_2N_coup_states", nc)]%string in
  cval G V_unco_size = Ok (I32, np * np * nu) /\ cval G V_coup_size = Ok (I32, 4 * (np * np) * nc) /\
  cval G dense_dim_main = Ok (I32, na * nq * np) /\ cval G P123_dim = Ok (I32, na * nq * np) /\ cval G bounds_size = Ok (I32, 4 * (na * nq * np)) /\
  (forall half, np * (np + 1) = 2 * half -> cval G H_unco_size = Ok (I32, half * nu)) /\ cval G H_coup_size = Ok (I32, np * (2 * np + 1) * nc) /\
  cval G e_unco_size = Ok (I32, (np + 1) * nu) /\ cval G e_coup_size = Ok (I32, 2 * (np + 1) * nc) /\
  cval (ints [("Np_WP", np); ("Nq_WP", nq)]%string) WP_cells = Ok (U64, nq * nq * np * np) /\
  (forall nphi, 1 <= nphi -> nq * np * nphi < 2 ^ 31 -> cval (ints [("Np_WP", np); ("Nq_WP", nq); ("Nphi", nphi)]%string) phi_size = Ok (I32, nq * np * nphi)).
Proof.
  intros F G. repeat split; intros; [ apply IndexProofs.size_V_unco | apply IndexProofs.size_V_coup | apply IndexProofs.size_dense | apply IndexProofs.size_P123 | apply IndexProofs.size_bounds
    | apply IndexProofs.size_H_unco | apply IndexProofs.size_H_coup | apply IndexProofs.size_e_unco | apply IndexProofs.size_e_coup | eapply IndexProofs2.i_WP_cells | eapply IndexProofs2.i_phi ]; eassumption.
Qed.
Print Assumptions C102_sizes_partial.

(* Potential matrices (make_potential_matrix.cpp): element (row, column) of the matrix of channel c, one matrix after the other; a
   coupled matrix has 2 np rows, the second np of them for the second state. *)
Theorem C102_potential_partial np nq na nu nc c r k : sizes_fit np nq na nu nc -> 0 <= r < np -> 0 <= k < np ->
  let G := ints [("Np_WP", np); ("chn_idx", c); ("idx_bin_r", r); ("idx_bin_c", k)]%string in
  (0 <= c < nu -> cval G V_uncoupled = Ok (I32, c * (np * np) + r * np + k) /\ 0 <= c * (np * np) + r * np + k < np * np * nu) /\
  (0 <= c < nc ->
    let element row col := c * (2 * np * (2 * np)) + row * (2 * np) + col in
    cval G V_upper_left = Ok (I32, element r k) /\ cval G V_upper_right = Ok (I32, element r (np + k)) /\
    cval G V_lower_left = Ok (I32, element (np + r) k) /\ cval G V_lower_right = Ok (I32, element (np + r) (np + k)) /\
    forall row col, 0 <= row < 2 * np -> 0 <= col < 2 * np -> 0 <= element row col < 4 * (np * np) * nc).
Proof.
  intros F Hr Hk G. split; [ intros Hc; split; [ eapply IndexProofs2.i_uncoupled; eassumption | apply IndexProofs2.in_square; assumption ] | ]. intros Hc element.
  split; [ eapply IndexProofs2.i_upper_left; eassumption | ]. split; [ eapply IndexProofs2.i_upper_right; eassumption | ]. split; [ eapply IndexProofs2.i_lower_left; eassumption | ]. split; [ eapply IndexProofs2.i_lower_right; eassumption | ].
  intros row col H1 H2. replace (4 * (np * np) * nc) with (2 * np * (2 * np) * nc) by ring. apply IndexProofs2.in_square; assumption.
Qed.
Print Assumptions C102_potential_partial.

(* Hamiltonians (make_swp_states.cpp): where the matrices of a channel start - the packed ones hold d(d+1)/2 numbers - and where
   element (r, k) of the upper triangle is, the rows before it holding d, d-1, ... numbers; energies of the scattering states. *)
Theorem C102_states_partial np nq na nu nc d n c : sizes_fit np nq na nu nc -> d = np /\ n = nu \/ d = 2 * np /\ n = nc -> 0 <= c < n ->
  let G := ints [("mat_dim", d); ("chn_idx", c)]%string in
  (forall half, d * (d + 1) = 2 * half -> cval G H_block = Ok (I32, c * half)) /\ cval G V_block = Ok (I32, c * (d * d)) /\
  (forall r k before, 0 <= r < d -> r <= k < d -> 2 * before = r * (2 * d - r + 1) ->
     cval (ints [("mat_dim", d); ("idx_bin_r", r); ("idx_bin_c", k)]%string) triangle = Ok (I32, before + (k - r)) /\
     cval (ints [("mat_dim", d); ("idx_bin_r", r); ("idx_bin_c", k)]%string) V_element = Ok (I32, r * d + k) /\
     0 <= c * (d * d) + (r * d + k) < d * d * n /\ forall half, d * (d + 1) = 2 * half -> 0 <= c * half + (before + (k - r)) < half * n) /\
  let E := ints [("Np_WP", np); ("chn_idx", c)]%string in
  (n = nu -> cval E e_unco = Ok (I32, c * (np + 1)) /\ 0 <= c * (np + 1) <= (np + 1) * nu - (np + 1)) /\
  (n = nc -> cval E e_coup_1 = Ok (I32, c * (2 * (np + 1))) /\ cval E e_coup_2 = Ok (I32, c * (2 * (np + 1)) + (np + 1)) /\
     0 <= c * (2 * (np + 1)) <= 2 * (np + 1) * nc - 2 * (np + 1)).
Proof.
  intros F Hd Hc G. assert (Hd' : d = np \/ d = 2 * np) by (destruct Hd as [[H _]|[H _]]; auto).
  split; [ intros half Hh; eapply IndexProofs2.i_H_block; eassumption | ]. split; [ eapply IndexProofs2.i_V_block; eassumption | ]. split.
  - intros r k before Hr Hk Hb. split; [ eapply IndexProofs2.i_triangle; eassumption | ]. split; [ eapply IndexProofs2.i_V_element; try eassumption; lia | ].
    split; [ rewrite Z.add_assoc; apply IndexProofs2.in_square; lia | ]. intros half Hh. eapply IndexProofs2.in_packed; eassumption.
  - intros E. split.
    + intros ->. split; [ eapply IndexProofs2.i_e_unco; eassumption | ]. rewrite (Z.mul_comm (np + 1) nu). apply IndexProofs.below; [ exact Hc | destruct F; lia ].
    + intros ->. split; [ eapply IndexProofs2.i_e_coup_1; eassumption | ]. split; [ eapply IndexProofs2.i_e_coup_2; eassumption | ]. rewrite (Z.mul_comm (2 * (np + 1)) nc). apply IndexProofs.below; [ exact Hc | destruct F; lia ].
Qed.
Print Assumptions C102_states_partial.

(* Cells (state a, q bin, p bin) of a channel: resolvent, breakup boundaries, permutation matrix, and back from a column number. *)
Theorem C102_cells_partial np nq na nu nc a q p : sizes_fit np nq na nu nc -> 0 <= a < na -> 0 <= q < nq -> 0 <= p < np ->
  let cell := (a * nq + q) * np + p in
  let G := ints [("Np_WP", np); ("Nq_WP", nq); ("idx_alpha", a); ("idx_q_bin", q); ("idx_p_bin", p)]%string in
  0 <= cell < na * nq * np /\ cval G G_cell = Ok (I32, cell) /\ cval G bounds_cell = Ok (I32, cell) /\
  (forall k, 0 <= k <= 3 -> cval (ints [("idx", cell)]%string) (bounds_entry k) = Ok (I32, 4 * cell + k)) /\
  cval (app (ints [("Np_WP", np); ("Nq_WP", nq)]%string) (sizes [("idx_alpha", a); ("idx_q_bin", q); ("idx_p_bin", p)]%string)) P123_row = Ok (U64, cell) /\
  let C := sizes [("Np_WP", np); ("Nq_WP", nq); ("idx_col", cell)]%string in
  cval C col_alpha = Ok (U64, a) /\ cval C col_q = Ok (U64, q) /\ cval C col_p = Ok (U64, p).
Proof.
  intros F Ha Hq Hp cell G. destruct (IndexProofs2.cell_facts _ _ _ _ _ F a q p Ha Hq Hp) as (A1 & A2 & A3 & A4 & A5 & A6).
  split; [ unfold cell; replace ((a * nq + q) * np + p) with (a * nq * np + q * np + p) by ring; lia | ].
  split; [ eapply IndexProofs2.i_G_cell; eassumption | ]. split; [ eapply IndexProofs2.i_bounds_cell; eassumption | ]. split; [ intros k Hk; eapply IndexProofs2.i_bounds_entry; eassumption | ].
  split; [ eapply IndexProofs2.i_P123_row; eassumption | ]. eapply IndexProofs2.i_col; eassumption.
Qed.
Print Assumptions C102_cells_partial.

(* Solver: blocks of the transposed eigenvector matrices (quarter m of a coupled one), and the amplitude of (row state, column
   state, energy). *)
Theorem C102_solver_partial np nq na nu nc c : sizes_fit np nq na nu nc ->
  let G := app (ints [("chn_idx", c)]%string) (sizes [("Np_WP", np)]%string) in
  (0 <= c < nu -> cval G CT_unco = Ok (U64, c * (np * np))) /\
  (0 <= c < nc -> cval G CT_coup = Ok (U64, c * (4 * (np * np))) /\
     forall m, 0 <= m < 4 -> cval (sizes [("idx_2N_mat_WP_coup", c * (4 * (np * np))); ("Np_WP", np)]%string) (CT_quarter m) = Ok (U64, c * (4 * (np * np)) + m * (np * np))) /\
  (forall nd nT r d j, 0 <= r < nd -> 0 <= d < nd -> 0 <= j < nT -> nd * nd * nT < 2 ^ 64 ->
     cval (sizes [("idx_d_row", r); ("num_deuteron_states", nd); ("num_q_com", nT); ("idx_d_col", d); ("idx_q_com", j)]%string) U_cell = Ok (U64, (r * nd + d) * nT + j)).
Proof.
  intros F G. split; [ intros Hc; eapply IndexProofs2.i_CT_unco; eassumption | ]. split.
  - intros Hc. split; [ eapply IndexProofs2.i_CT_coup; eassumption | ]. intros m Hm. eapply IndexProofs2.i_CT_quarter; eassumption.
  - intros nd nT r d j H1 H2 H3 H4. exact (IndexProofs2.i_U_cell nd nT r d j H1 H2 H3 H4).
Qed.
Print Assumptions C102_solver_partial.

(* Tables of the permutation matrix: nphi angles, nx points, sets of len Legendre functions.  Tables are stored by (q bin, p bin, angle,
   point); the place a set is read from is the place it was written to, every set lies inside its table, and so do the numbers of pairs
   of cells. *)
Theorem C102_tables_partial np nq nphi nx len q p f x : 1 <= np < 2 ^ 31 -> 1 <= nq < 2 ^ 31 -> 1 <= nphi < 2 ^ 31 -> 1 <= nx < 2 ^ 31 -> 1 <= len -> len * (nq * np * nphi * nx) < 2 ^ 64 ->
  0 <= q < nq -> 0 <= p < np -> 0 <= f < nphi -> 0 <= x < nx ->
  let G := app (sizes [("qp_idx_WP", q); ("pp_idx_WP", p); ("phi_idx", f); ("len", len)]%string) (ints [("Np_WP", np); ("Nphi", nphi); ("Nx", nx); ("x_idx", x)]%string) in
  let set := ((q * np + p) * nphi + f) * nx + x in
  cval (app (sizes [("len", len)]%string) (ints [("Nx", nx)]%string)) Plm_1_size = Ok (U64, len * nx) /\
  cval (app (sizes [("len", len)]%string) (ints [("Np_WP", np); ("Nq_WP", nq); ("Nphi", nphi); ("Nx", nx)]%string)) Plm_2_size = Ok (U64, len * (nq * np * nphi * nx)) /\
  (cval G phi_entry = Ok (U64, (q * np + p) * nphi + f) /\ 0 <= (q * np + p) * nphi + f < nq * np * nphi) /\
  (cval (sizes [("idx_subarray_1", x); ("len", len)]%string) Plm_1_entry = Ok (U64, x * len) /\ 0 <= x * len /\ x * len + len <= len * nx) /\
  (* written *)
  (cval G Plm_2_set = Ok (U64, set) /\ cval (sizes [("idx_subarray_2", set); ("len", len)]%string) Plm_2_entry = Ok (U64, set * len) /\
   0 <= set * len /\ set * len + len <= len * (nq * np * nphi * nx)) /\
  (* read *)
  (exists start inner, cval G Plm_2_start = Ok (U64, start) /\ cval G Plm_2_inner = Ok (U64, inner) /\ start + inner = set * len) /\
  (nphi * nx < 2 ^ 31 -> cval (ints [("Nphi", nphi); ("Nx", nx)]%string) G_size = Ok (I32, nphi * nx)) /\
  cval G G_entry = Ok (U64, f * nx + x) /\ 0 <= f * nx + x < nphi * nx.
Proof.
  intros H1 H2 H3 H4 H5 H6 Hq Hp Hf Hx G set. change (2 ^ 64) with two64 in H6.
  split; [ eapply (IndexProofs3.t_Plm_1_size np nq nphi); eassumption | ]. split; [ apply IndexProofs3.t_Plm_2_size; assumption | ].
  split; [ eapply (IndexProofs3.t_phi_entry np nq); eassumption | ]. split; [ eapply (IndexProofs3.t_Plm_1_entry np nq nphi); eassumption | ].
  split; [ split; [ eapply (IndexProofs3.t_Plm_2_set np nq); eassumption | split; [ eapply (IndexProofs3.t_Plm_2_entry np nq); eassumption | eapply (IndexProofs3.t_entry_bound np nq); eassumption ] ] | ].
  split. { destruct (IndexProofs3.t_Plm_2_start np nq nphi nx len H1 H2 H3 H4 H5 H6 q p f x Hq Hp Hf Hx) as (A & B & _). eexists _, _. split; [ exact A | split; [ exact B | unfold set; ring ] ]. }
  split; [ eapply (IndexProofs3.t_G_size np nq nphi nx len); eassumption | ]. eapply (IndexProofs3.t_G_entry np nq nphi nx len); eassumption.
Qed.
Print Assumptions C102_tables_partial.
(* the default sizes: 50 by 50 packets, 48 angles, 48 points; sets of 190 functions (orders up to 18) *)
Example C102_tables_used : 1 <= 50 < 2 ^ 31 /\ 190 * (50 * 50 * 48 * 48) < 2 ^ 64 /\
  cval (app (sizes [("qp_idx_WP", 49); ("pp_idx_WP", 49); ("phi_idx", 47); ("len", 190)]%string) (ints [("Np_WP", 50); ("Nphi", 48); ("Nx", 48); ("x_idx", 47)]%string)) Plm_2_set = Ok (U64, 50 * 50 * 48 * 48 - 1).
Proof. vm_compute. repeat split; discriminate. Qed.

(* Pairs of cells (momentum overlap table). *)
Theorem C102_pairs_partial np nq q' p' q p : 1 <= np -> 1 <= nq -> nq * np < 2 ^ 31 -> 0 <= q' < nq -> 0 <= p' < np -> 0 <= q < nq -> 0 <= p < np ->
  let G := ints [("Np_WP", np); ("Nq_WP", nq)]%string in
  exists s1 s2 s3, cval G step_1 = Ok (U64, s1) /\ cval G step_2 = Ok (U64, s2) /\ cval G step_3 = Ok (U64, s3) /\
  let pair := (q' * np + p') * (nq * np) + (q * np + p) in
  cval (app (sizes [("qp_idx_WP", q'); ("pp_idx_WP", p'); ("idx_q_bin", q); ("idx_p_bin", p)]%string) (sizes [("step_length_1", s1); ("step_length_2", s2); ("step_length_3", s3)]%string)) pair_cell = Ok (U64, pair) /\
  0 <= pair < nq * nq * np * np.
Proof.
  intros H1 H2 H3 Hq' Hp' Hq Hp G. destruct (IndexProofs3.t_steps np nq H1 H2 H3) as (A & B & C). eexists _, _, _. split; [ exact A | split; [ exact B | split; [ exact C | ] ] ].
  exact (IndexProofs3.t_pair_cell np nq q' p' q p H1 H2 H3 Hq' Hp' Hq Hp).
Qed.
Print Assumptions C102_pairs_partial.
Example C102_pairs_used : 1 <= 30 /\ 30 * 30 < 2 ^ 31 /\ cval (ints [("Np_WP", 30); ("Nq_WP", 30)]%string) step_1 = Ok (U64, 27000).
Proof. vm_compute. repeat split; discriminate. Qed.

(* In numbers: up to 2000 momentum packets, pair angular momenta up to 99 and 2^29 cells per channel, with or without tensor force
   and isospin breaking, every model space fits. *)
Theorem C102_supported_partial tensor iso J np nq na : 1 <= np <= 2000 -> 0 <= J <= 99 -> 1 <= nq -> 1 <= na -> na * nq * np < 2 ^ 29 ->
  sizes_fit np nq na (num_2N_unco_states tensor iso J) (num_2N_coup_states tensor iso J).
Proof.
  intros Hp HJ Hq Ha HC. assert (U : 1 <= num_2N_unco_states tensor iso J <= 398) by (unfold num_2N_unco_states; destruct tensor, iso; lia).
  assert (K : 0 <= num_2N_coup_states tensor iso J <= 100) by (unfold num_2N_coup_states; destruct tensor, iso; lia).
  assert (M1 : 0 <= np * (np + 1) <= 2000 * 2001) by (split; [ apply Z.mul_nonneg_nonneg | apply Z.mul_le_mono_nonneg ]; lia).
  assert (M2 : 0 <= 2 * np * (2 * np + 1) <= 4000 * 4001) by (split; [ apply Z.mul_nonneg_nonneg | apply Z.mul_le_mono_nonneg ]; lia).
  set (nu := num_2N_unco_states tensor iso J) in *. set (nc := num_2N_coup_states tensor iso J) in *. clearbody nu nc.
  assert (M3 : np * (np + 1) * nu <= 2000 * 2001 * 398) by (apply Z.mul_le_mono_nonneg; lia).
  assert (M4 : 2 * np * (2 * np + 1) * nc <= 4000 * 4001 * 100) by (apply Z.mul_le_mono_nonneg; lia).
  constructor; lia.
Qed.
Print Assumptions C102_supported_partial.

(* Nothing in the program checks the sizes: with Np_WP=12000 and every other option at its default the settings are accepted, and the
   size of the array for the coupled potentials (18 GB) overflows. *)
Theorem C102_refuted dbl stod fs (d1 d100 : dbl) : exists cfg, set_run_parameters dbl stod fs 8 d1 d100 ["Np_WP=12000"%string] = Ok cfg /\
  cfg F_Np_WP = VInt dbl 12000 /\ cfg F_J_2N_max = VInt dbl 3 /\ cfg F_tensor_force = VBool dbl true /\ cfg F_isospin_breaking_1S0 = VBool dbl true /\
  (* main.cpp l.275-280: J_2N_max + 1 coupled channels *)
  cval (ints [("Np_WP", 12000); ("num_2N_coup_states", 3 + 1)]%string) V_coup_size = UB.
Proof. eexists. split; [ vm_compute; reflexivity | ]. repeat split; vm_compute; reflexivity. Qed.
Print Assumptions C102_refuted.

(* the default model space, a hundred states *)
Example C102_example : sizes_fit 50 50 100 7 4 /\
  cval (ints [("Np_WP", 50); ("chn_idx", 3); ("idx_bin_r", 49); ("idx_bin_c", 49)]%string) V_lower_right = Ok (I32, 39999).
Proof. split; [ constructor; lia | vm_compute; reflexivity ]. Qed.
