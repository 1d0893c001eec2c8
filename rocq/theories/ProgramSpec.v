(* Specification of the whole program (C94-C97): which inputs and machines are considered, and what a result file must hold. *)
From Coq Require Import Reals String Permutation Sorted.
From Verif Require Import Common NameModel ParamsModel ParamsSpec DriverModel DriverSpec InputModel InputSpec PWModel PWSpec SwpModel SwpSpec SparseModel GridSpec PermModel PermSpec GeoModel GeoSpec
  PioModel PioSpec PotentialModel PotentialSpec KernelSpec ResolventModel SwpWholeModel SwpWholeSpec SpectralSpec OnShellModel OnShellSpec
  FaddeevModel FaddeevSpec DetModel DenseModel PadeSpec AgsSpec ChainModel ChainSpec IterSpec ReproModel ReproSpec OutputModel OutputSpec TextModel TextSpec ProgramModel.
From Verif Require PermWholeSpec.
Open Scope nat_scope.

(* ---------- grids ---------- *)
(* the boundaries a grid type stands for: Chebyshev with scale s and sparseness t, or the numbers in a file, one per line *)
Definition boundaries_of (fs : file_system) (type file : string) (N : nat) (s t : R) (b : list R) : Prop :=
  (type = "chebyshev"%string /\ (0 < s)%R /\ (0 < t)%R /\ length b = N + 1 /\ nth 0 b 0%R = 0%R /\
   forall i, 1 <= i <= N -> nth i b 0%R = (s * Rpower (tan ((2 * INR i - 1) * PI / (4 * INR N))) t)%R) \/
  (type = "custom"%string /\ partition_from_zero N b /\
   exists content lines, fs file = Some content /\ has_lines content lines /\ Forall2 begins_with lines b).
(* the points at which the interaction is evaluated: the middle of each bin, or the rule (gx, gw) of n points scaled to it; the
   weight function is 1, the norm of a packet the root of its width *)
Definition packet_points (mid : bool) (gx gw : nat -> list R) (N n : nat) (b : list R) : vgrid :=
  let half k := ((GridSpec.upper b k - GridSpec.lower b k) / 2)%R in
  let centre k := ((GridSpec.lower b k + GridSpec.upper b k) / 2)%R in
  let bins := seq 0 N in
  let norm := map (fun k => sqrt (GridSpec.upper b k - GridSpec.lower b k)) bins in
  if mid then mkvgrid N n b (map centre bins) [] (repeat 1%R N) norm
  else mkvgrid N n b (flat_map (fun k => map (fun x => half k * x + centre k)%R (gx n)) bins)
         (flat_map (fun k => map (fun w => half k * w)%R (gw n)) bins) (repeat 1%R (N * n)) norm.

(* ---------- inputs ---------- *)
(* the settings the theorems are about; direct or iterative solver, with or without breakup *)
Record settings_ok (dense bu : bool) (cfg : config R) : Prop := mkset {
  so_tensor : cflag cfg F_tensor_force = true; so_solve : cflag cfg F_solve_faddeev = true; so_dense : cflag cfg F_solve_dense = dense;
  so_calc : cflag cfg F_calculate_and_store_P123 = true; so_rec : cflag cfg F_P123_recovery = false;
  so_prod : cflag cfg F_production_run = true; so_bu : cflag cfg F_include_breakup_channels = bu;
  so_J : (0 <= cint cfg F_J_2N_max)%Z; so_Np : (3 <= cint cfg F_Np_WP)%Z; so_Nq : (1 <= cint cfg F_Nq_WP)%Z;
  so_mid : cflag cfg F_midpoint_approx = false \/ cflag cfg F_isospin_breaking_1S0 = false }.
Definition walk_of (cfg : config R) : walk := mkwalk (cflag cfg F_parameter_walk) (cint cfg F_PSI_start) (cint cfg F_PSI_end).
(* with a parameter walk: the file is a table (one row per line, single blanks between the numbers), and the range lies inside it *)
Definition parameter_table (fs : file_system) (cfg : config R) (m : potential) (rows : list (list R)) : Prop :=
  cflag cfg F_parameter_walk = true ->
  exists content lines n, fs (cstr cfg F_parameter_file) = Some content /\ has_lines content lines /\ rows <> [] /\ 1 <= n /\ num_read m <= n /\
    Forall2 (fun line row => exists words, line = String.concat " " words /\ Forall2 entry_of words row /\ length row = n) lines rows /\
    (Z.of_nat (length rows) <= INT_MAX)%Z /\ (0 <= cint cfg F_PSI_start <= INT_MAX)%Z /\ (INT_MIN <= cint cfg F_PSI_end - cint cfg F_PSI_start)%Z /\
    (cint cfg F_PSI_end <= Z.of_nat (length rows))%Z.
(* the parameters of set psi: as many numbers of its row as the model uses; the model's own constants without a walk *)
Definition parameters_of (lb : library) (cfg : config R) (m : potential) (rows : list (list R)) (psi : Z) : list R :=
  if cflag cfg F_parameter_walk then match num_read m with O => lb_preset lb m | k => firstn k (nth (Z.to_nat psi) rows []) end
  else lb_preset lb m.
(* the energy file: decimal numbers separated by white space *)
Definition energy_file (fs : file_system) (cfg : config R) (energies : list R) : Prop :=
  exists content, ends_in (cstr cfg F_energy_input_file) ".txt" /\ fs (cstr cfg F_energy_input_file) = Some content /\
    Forall2 (fun w y => exists x, decimal_text w x /\ nearest x y) (fields content) energies.
(* the channels a run works on *)
Definition channels_of (cfg : config R) (ss : statespace) : list nat :=
  let all := seq 0 (Z.to_nat (ss_N_chn ss)) in
  if cflag cfg F_parallel_run then filter (fun c => Z.of_nat c =? cint cfg F_channel_idx)%Z all else all.

(* ---------- library and machine ---------- *)
Record library_ok (lb : library) (sphP : Z -> Z -> R -> R) : Prop := mklok {
  lo_3j : threej_rule (lb_threej lb); lo_9j : ninej_rule (lb_ninej lb); lo_leg : legendre_rule sphP (lb_legblock lb) (lb_legsize lb);
  lo_roots : forall n, mesh_in (-1) 1 (lb_roots lb n) /\ length (lb_roots lb n) = n;
  lo_gauss : forall n, mesh_in (-1) 1 (lb_gx lb n) /\ length (lb_gx lb n) = n /\ length (lb_gw lb n) = n }.
(* while a permutation matrix is built (channel c with these states): arrays of the requested sizes, a buffer with at least one
   place for each thread, sorting that sorts; the schedule gives each element to one of the threads; file names fit *)
Record building_ok (lb : library) (cfg : config R) (c : Z) (states : list pw) (E : environment) (sched : list (elem R) -> list (nat * elem R)) : Prop := mkbok {
  bo_arrays : let Np := cnat cfg F_Np_WP in let Nq := cnat cfg F_Nq_WP in let Nphi := cnat cfg F_Nphi in
    length (en_phi E) = Nq * Np * Nphi /\ length (en_wphi E) = Nq * Np * Nphi /\ length (en_tab E) = Nq * Nq * Np * Np /\
    allocated (lb_legsize lb) states Np Nq Nphi (cnat cfg F_Nx) (en_geo E) /\ forall qp, length (en_G E qp) = Nphi * cnat cfg F_Nx;
  bo_eq : decides_eq (en_veqb E);
  bo_srt : sorts (en_srt E);
  bo_buf : 1 <= en_B E /\ forall t, length (en_buf E t) = en_B E;
  bo_sched : forall l, Permutation (map snd (sched l)) l /\ forall ev, In ev (sched l) -> fst ev < cnat cfg F_P123_omp_num_threads;
  bo_names : let D := length states * cnat cfg F_Nq_WP * cnat cfg F_Np_WP in
    forall t k, t < cnat cfg F_P123_omp_num_threads -> k <= D * D ->
     String.length (subarray_file_name (cstr cfg F_P123_folder) (fst (nth_chn c)) (snd (nth_chn c)) (Z.of_nat (cnat cfg F_Np_WP)) (Z.of_nat (cnat cfg F_Nq_WP))
                      (cint cfg F_J_2N_max) (Z.of_nat t) (Z.of_nat k)) < 300 }.
(* the two-nucleon spectra: dspevd solves the eigenvalue problems; no degeneracy, no eigenvalue 0, above minus the deuteron mass *)
Definition spectra_ok (cfg : config R) (vg : vgrid) (ss : statespace) (pot : potmodel) (E : environment) : Prop :=
  let iso := cflag cfg F_isospin_breaking_1S0 in let J := cint cfg F_J_2N_max in
  forall V, fresh_potential (en_mem E) iso (cflag cfg F_midpoint_approx) J pot (en_junk E) vg (ss_states ss) = Ok V ->
     solves (en_diag E) (vg_Np vg) (vg_pWP vg) V (num_channels iso J) /\
     forall cm i, is_channel iso (ss_states ss) cm i -> let w := fst (spectrum (en_diag E) (vg_Np vg) (vg_pWP vg) V cm i) in
       increasing w /\ forall k, k < dim2 cm (vg_Np vg) -> nth k w 0%R <> 0%R /\ (- (Mn + Mp) < nth k w 0)%R.
(* while a parameter set is worked on: library routines do what they promise, new[] returns arrays of the requested length *)
Record solving_ok (cfg : config R) (vg : vgrid) (ss : statespace) (pot : potmodel) (E : environment) : Prop := mksok {
  vo_sort : forall keys, sort_indexes_contract keys (en_sort E keys);
  vo_solve : solve_contract (en_solve E);
  vo_mem : allocates (en_mem E); vo_cmem : allocates (en_cmem E); vo_pmem : allocates (en_pmem E);
  vo_diag : spectra_ok cfg vg ss pot E }.
(* the same with the iterative solver; the cell before its arrays may hold anything (in the language, reading it is undefined: C93_refuted) *)
Record iterating_ok (cfg : config R) (vg : vgrid) (ss : statespace) (pot : potmodel) (E : environment) (getrf : getrf_t) (memory : strays) : Prop := mkiok {
  io_sort : forall keys, sort_indexes_contract keys (en_sort E keys);
  io_getrf : getrf_contract getrf;
  io_strays : exists f fb, memory = (Some f, Some fb);
  io_mem : allocates (en_mem E); io_cmem : allocates (en_cmem E); io_pmem : allocates (en_pmem E);
  io_diag : spectra_ok cfg vg ss pot E }.

(* ---------- results ---------- *)
(* why the work on a parameter set may stop with an error *)
Definition set_stops (cfg : config R) (vg : vgrid) (q : list R) (ss : statespace) (pot : potmodel) (E : environment) (energies : list R) : Prop :=
  let iso := cflag cfg F_isospin_breaking_1S0 in let Nq := cnat cfg F_Nq_WP in
  exists V, fresh_potential (en_mem E) iso (cflag cfg F_midpoint_approx) (cint cfg F_J_2N_max) pot (en_junk E) vg (ss_states ss) = Ok V /\
  let spec cm i := fst (spectrum (en_diag E) (vg_Np vg) (vg_pWP vg) V cm i) in
  ((exists cm i, is_channel iso (ss_states ss) cm i /\ ~ bound_states_ok (is_deuteron_channel iso (ss_states ss) cm i) (spec cm i)) \/
   (exists Eb, bound_energy iso (ss_states ss) spec Eb /\ elastic_bins Nq q Eb energies = Err)).

(* the physics of channel c at set psi, with the interaction pot: the states, the two-nucleon bound state Eb, the energies os and
   their bins, the deuteron waves ds, the permutation operator P *)
Definition channel_facts (lb : library) (sphP : Z -> Z -> R -> R) (E : environment) (cfg : config R) (vg : vgrid) (q : list R) (ss : statespace)
    (pot : potmodel) (energies : list R) (c : nat) (states : list pw) (Eb : R) (os : on_shell) (ds : list nat) (P : nat -> nat -> R) : Prop :=
  let iso := cflag cfg F_isospin_breaking_1S0 in let J := cint cfg F_J_2N_max in
  let Np := vg_Np vg in let Nq := cnat cfg F_Nq_WP in let p := vg_pWP vg in let Nphi := cnat cfg F_Nphi in let Nx := cnat cfg F_Nx in
  channel_slice ss (Z.of_nat c) = Ok states /\ NoDup states /\
  (forall s, In s states <-> (physical s /\ in_model_space J (cint cfg F_two_J_3N_max) iso s) /\ chn_of s = nth_chn (Z.of_nat c)) /\
  (exists V, fresh_potential (en_mem E) iso (cflag cfg F_midpoint_approx) J pot (en_junk E) vg (ss_states ss) = Ok V /\
     (forall cm i, is_channel iso (ss_states ss) cm i ->
        bound_states_ok (is_deuteron_channel iso (ss_states ss) cm i) (fst (spectrum (en_diag E) Np p V cm i))) /\
     bound_energy iso (ss_states ss) (fun cm i => fst (spectrum (en_diag E) Np p V cm i)) Eb) /\
  elastic_bins Nq q Eb energies = Ok os /\
  let ne := length (os_T os) in
  length (os_q os) = ne /\ length (os_E os) = ne /\ length (os_idx os) = ne /\
  (forall j, j < ne -> let k := nth j (os_q os) 0%R in let b := nth j (os_idx os) 0 in
     b < Nq /\ (GridSpec.lower q b < k < GridSpec.upper q b)%R /\ com_momentum_of Mp (Mn + Mp + Eb) (nth j (os_T os) 0%R) k /\
     nth j (os_E os) 0%R = (3 * k * k / (4 * MN))%R) /\
  StronglySorted lt ds /\ (forall i, In i ds <-> i < length states /\ is_deuteron (nth i states dummy_pw)) /\
  permutation_operator (lb_sixj lb) (lb_ninej lb) (lb_threej lb) sphP (lb_roots lb Nphi) (lb_dleg lb Nphi) (lb_gx lb Nx) (lb_gw lb Nx) p q states Nq Np P.

(* [file] (name, text) is the elastic result file of channel c and set psi with these energies and amplitudes *)
Definition elastic_text (mc : machine) (cfg : config R) (c : nat) (psi : Z) (states : list pw) (Eb : R) (os : on_shell) (ds : list nat) (U : list cdouble)
    (file : string * string) : Prop :=
  let Np := cint cfg F_Np_WP in let Nq := cint cfg F_Nq_WP in let '(twoJ, parity) := nth_chn (Z.of_nat c) in let ne := length (os_T os) in let nd := length ds in
  exists t1 t2,
    fst file = U_file_name (cstr cfg F_output_folder) (file_identification Np Nq twoJ parity (cint cfg F_J_2N_max)) psi /\
    snd file = elastic_file cdouble (mc_re mc) (mc_im mc) twoJ parity (cstr cfg F_potential_model) Np Nq (mc_Eb mc Eb) t1 headers2 t2 /\
    length t1 = nd * nd /\ length t2 = ne /\
    (forall i k, i < nd -> k < nd -> let si := nth (nth i ds 0) states dummy_pw in let sk := nth (nth k ds 0) states dummy_pw in
       nth_error t1 (i * nd + k) = Some (mkt1 ("U" ++ str_of_nat i ++ str_of_nat k) i k (L_1N si) (two_J_1N si) (L_1N sk) (two_J_1N sk))) /\
    (forall j, j < ne -> exists line, nth_error t2 j = Some line /\
       t2_T cdouble line = rc (nth j (os_T os) 0%R) /\ t2_E cdouble line = rc (nth j (os_E os) 0%R) /\ t2_q cdouble line = nth j (os_idx os) 0 /\
       length (t2_U cdouble line) = nd * nd /\
       forall i k, i < nd -> k < nd -> nth_error (t2_U cdouble line) (i * nd + k) = Some (nth (i * nd * ne + k * ne + j) U c0)).

(* [file] is a correct result file of the direct solver for channel c and set psi of the interaction pot *)
Definition result_file (lb : library) (sphP : Z -> Z -> R -> R) (mc : machine) (cfg : config R) (vg : vgrid) (q : list R) (ss : statespace)
    (pot : potmodel) (energies : list R) (c : nat) (psi : Z) (file : string * string) : Prop :=
  exists states Eb os ds P U,
    channel_facts lb sphP (mc_env mc c psi) cfg vg q ss pot energies c states Eb os ds P /\
    length U = length (os_T os) * length ds * length ds /\
    amplitudes_of states (cnat cfg F_Nq_WP) (vg_Np vg) (vg_pWP vg) q (potential3 (cflag cfg F_midpoint_approx) pot vg states) P Eb (os_E os) (os_idx os) ds U /\
    elastic_text mc cfg c psi states Eb os ds U file.
(* ... of the iterative solver *)
Definition iterated_file (lb : library) (sphP : Z -> Z -> R -> R) (mc : machine) (cfg : config R) (vg : vgrid) (q : list R) (ss : statespace)
    (pot : potmodel) (energies : list R) (c : nat) (psi : Z) (file : string * string) : Prop :=
  exists states Eb os ds P U,
    channel_facts lb sphP (mc_env mc c psi) cfg vg q ss pot energies c states Eb os ds P /\
    length U = length (os_T os) * length ds * length ds /\
    iterated_amplitudes states (cnat cfg F_Nq_WP) (vg_Np vg) (vg_pWP vg) q (potential3 (cflag cfg F_midpoint_approx) pot vg states) P Eb (os_E os) (os_idx os) ds U None /\
    elastic_text mc cfg c psi states Eb os ds U file.

(* how a run went: every task of the list has its one file, in order; or it stopped at one of them, with the files of those before *)
Definition one_file_each {T : Type} (good : T -> string * string -> Prop) (stops : T -> Prop) (todo : list T) (run : ran unit) : Prop :=
  (snd run = Ok tt /\ Forall2 good todo (fst run)) \/
  (snd run = Err /\ exists n t, nth_error todo n = Some t /\ stops t /\ Forall2 good (firstn n todo) (fst run)).

(* ---------- with breakup (C97) ---------- *)
(* [file] is the breakup result file of channel c and set psi: a table with five columns for the energy and five for each pair of a
   final partial wave a and a deuteron wave d; the amplitude from deuteron wave d to cell number b stands at row d b, col d b *)
Definition breakup_text (mc : machine) (cfg : config R) (q : list R) (c : nat) (psi : Z) (states : list pw) (Eb : R) (os : on_shell) (ds : list nat)
    (edge : nat -> nat -> R) (cells : list (Z * Z * Z)) (ends : list nat) (UBU : list cdouble) (file : string * string) : Prop :=
  let Np := cint cfg F_Np_WP in let Nq := cint cfg F_Nq_WP in let '(twoJ, parity) := nth_chn (Z.of_nat c) in
  let ne := length (os_T os) in let nd := length ds in let nc := length cells in let wave a := nth a states dummy_pw in
  let energy j := [rc (nth j (os_T os) 0%R); rc (nth j (os_E os) 0%R); rc (nth j (os_q os) 0%R);
                   rc (GridSpec.lower q (nth j (os_idx os) 0)); rc (GridSpec.upper q (nth j (os_idx os) 0))] in
  exists headers data rows cols (row col : nat -> nat -> nat),
    fst file = U_BU_file_name (cstr cfg F_output_folder) (file_identification Np Nq twoJ parity (cint cfg F_J_2N_max)) psi /\
    breakup_file cdouble (mc_re mc) (mc_im mc) twoJ parity (cstr cfg F_potential_model) Np Nq (mc_Eb mc Eb) headers data rows cols = Ok (snd file) /\
    length headers = cols /\ length data = cols * rows /\ firstn 5 headers = energy_columns /\
    (forall d j b a iq ip, d < nd -> j < ne -> nth j ends 0 <= b < nth (j + 1) ends 0 -> nth_error cells b = Some (Z.of_nat a, Z.of_nat iq, Z.of_nat ip) ->
       5 <= col d b /\ firstn 5 (skipn (col d b) headers) = state_columns (wave a) (wave (nth d ds 0)) /\
       map (entry data cols (row d b)) (seq (col d b) 5) =
         map Some [nth (d * nc + b) UBU c0; rc (GridSpec.lower q iq); rc (GridSpec.upper q iq); mc_pmom mc (edge a ip); mc_pmom mc (edge a (ip + 1))] /\
       map (entry data cols (row d b)) (seq 0 5) = map Some (energy j)) /\
    (forall d b d' b', d < nd -> b < nc -> d' < nd -> b' < nc -> row d b = row d' b' -> col d b = col d' b' -> d = d' /\ b = b') /\
    (forall d b d' b', d < nd -> b < nc -> d' < nd -> b' < nc ->
       (col d b = col d' b' <-> d = d' /\ fst (fst (nth b cells (0, 0, 0)%Z)) = fst (fst (nth b' cells (0, 0, 0)%Z)))) /\
    (forall r k, r < rows -> 5 <= k < cols -> (forall d b, d < nd -> b < nc -> ~ (r = row d b /\ col d b <= k < col d b + 5)) -> entry data cols r k = Some c0) /\
    (forall r, r < rows -> exists j, j < ne /\ map (entry data cols r) (seq 0 5) = map Some (energy j)).
(* the result files of channel c and set psi with breakup: first the elastic, then the breakup file; the pair's bin boundaries
   [edge] and all amplitudes belong to the same wave packets C *)
Definition breakup_files (lb : library) (sphP : Z -> Z -> R -> R) (mc : machine) (cfg : config R) (vg : vgrid) (q : list R) (ss : statespace)
    (pot : potmodel) (energies : list R) (c : nat) (psi : Z) (out : list (string * string)) : Prop :=
  exists file file' states Eb os ds P U cells ends UBU C lam edge, out = [file; file'] /\
    channel_facts lb sphP (mc_env mc c psi) cfg vg q ss pot energies c states Eb os ds P /\
    length U = length (os_T os) * length ds * length ds /\
    iterated_with states (cnat cfg F_Nq_WP) (vg_Np vg) (vg_pWP vg) q (potential3 (cflag cfg F_midpoint_approx) pot vg states) P Eb (os_E os) (os_idx os) ds U
      (Some (cells, ends, UBU)) C lam edge /\
    (forall t, In t cells -> exists a iq ip, t = (Z.of_nat a, Z.of_nat iq, Z.of_nat ip) /\ valid3 (length states) (cnat cfg F_Nq_WP) (vg_Np vg) (a, iq, ip)) /\
    elastic_text mc cfg c psi states Eb os ds U file /\ breakup_text mc cfg q c psi states Eb os ds edge cells ends UBU file'.
(* why the work may stop with an error *)
Definition breakup_stops (cfg : config R) (vg : vgrid) (q : list R) (ss : statespace) (pot : potmodel) (E : environment) (energies : list R) (c : nat) : Prop :=
  exists states, channel_slice ss (Z.of_nat c) = Ok states /\
    stops_because (en_diag E) (en_mem E) (cint cfg F_J_2N_max) (cflag cfg F_isospin_breaking_1S0) (cflag cfg F_midpoint_approx) ss states (cnat cfg F_Nq_WP) q pot (en_junk E) vg energies true.
(* why its results may be undefined: a cell that is not in the grid is stored (C35); or, while the equation with the permutation
   operator (its elements: res, row, column and value) is solved, there are cells but fewer energies than deuteron waves (C45), or the iteration ends
   before every element has an accepted approximant (C45) *)
Definition breakup_defect (lb : library) (sphP : Z -> Z -> R -> R) (cfg : config R) (vg : vgrid) (q : list R) (ss : statespace) (pot : potmodel) (E : environment)
    (getrf : getrf_t) (memory : strays) (energies : list R) (c : nat) : Prop :=
  let iso := cflag cfg F_isospin_breaking_1S0 in let mid := cflag cfg F_midpoint_approx in let J := cint cfg F_J_2N_max in let Nq := cnat cfg F_Nq_WP in
  let Nphi := cnat cfg F_Nphi in let Nx := cnat cfg F_Nx in
  exists states, channel_slice ss (Z.of_nat c) = Ok states /\
    (cell_off_grid (en_diag E) (en_mem E) J iso mid ss states Nq q pot (en_junk E) vg energies \/
     exists res r,
       (forall row col v, In (row, col, v) res -> (0 <= row < Z.of_nat (length states * Nq * vg_Np vg))%Z /\ (0 <= col < Z.of_nat (length states * Nq * vg_Np vg))%Z) /\
       permutation_operator (lb_sixj lb) (lb_ninej lb) (lb_threej lb) sphP (lb_roots lb Nphi) (lb_dleg lb Nphi) (lb_gx lb Nx) (lb_gw lb Nx) (vg_pWP vg) q states Nq (vg_Np vg)
         (fun i j => PermWholeSpec.entry res (Z.of_nat i) (Z.of_nat j)) /\
       channel_stages (en_diag E) (en_sort E) (en_mem E) (en_cmem E) (en_pmem E) true iso mid J Nq q pot (en_junk E) vg ss (Z.of_nat c) energies res = Ok r /\
       (length (os_T (cr_os r)) < length (cr_ds r) /\ fst (cr_bu r) <> [] \/ stopped_early (determinant getrf) memory r)).
(* an on-shell energy of this set is at or above the breakup threshold *)
Definition reaches_breakup (cfg : config R) (vg : vgrid) (q : list R) (ss : statespace) (pot : potmodel) (E : environment) (energies : list R) : Prop :=
  let iso := cflag cfg F_isospin_breaking_1S0 in
  exists V Eb os En, fresh_potential (en_mem E) iso (cflag cfg F_midpoint_approx) (cint cfg F_J_2N_max) pot (en_junk E) vg (ss_states ss) = Ok V /\
    bound_energy iso (ss_states ss) (fun cm i => fst (spectrum (en_diag E) (vg_Np vg) (vg_pWP vg) V cm i)) Eb /\ elastic_bins (cnat cfg F_Nq_WP) q Eb energies = Ok os /\
    In En (os_E os) /\ (0 <= En + Eb)%R.
(* how a run went: the right files for every task, in order; or up to one of them, where it stopped with an error or where the
   results may be undefined *)
Definition files_until {T : Type} (good : T -> list (string * string) -> Prop) (stops defect : T -> Prop) (todo : list T) (run : ran unit) : Prop :=
  (snd run = Ok tt /\ exists outs, Forall2 good todo outs /\ fst run = concat outs) \/
  (exists n t outs rest, nth_error todo n = Some t /\ Forall2 good (firstn n todo) outs /\ fst run = concat outs ++ rest /\
     (snd run = Err /\ rest = [] /\ stops t \/ defect t)).
