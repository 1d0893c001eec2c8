(* Property theorems: one three-nucleon channel with the iterative solver, end to end (C93). *)
From Coq Require Import Reals Lra Lia Permutation Sorted String ZifyBool.
From Verif Require Import Common ArrayLib PWModel PWSpec SwpModel SwpSpec SparseModel GridSpec PermModel PermSpec PermWholeModel PermWholeSpec
  GeoModel GeoSpec NameModel PioModel PioSpec
  KernelModel KernelSpec PotentialModel PotentialSpec ResolventModel SwpWholeModel SwpWholeSpec SpectralSpec OnShellModel OnShellSpec
  FaddeevModel FaddeevSpec DetModel DenseModel PadeSpec AgsSpec ChainModel ChainSpec IterSpec.
From Verif Require ChainFinal IterFinal IterMatrix PermWholeProofs FaddeevSolveProofs ChainExample ChainProofs SpectralProps SwpWholeProps OnShellProofs OnShellPropsLemmas DetExists.
Open Scope nat_scope.
Open Scope list_scope.

(* C93 without breakup: the work of main on one channel with the default solver, for every Hermitian interaction, grid, model
   space, scattering energies and memory contents.  It stops with an error for the reasons of C91 only, or it returns, and what
   it reports are accepted approximants of the Born series of T = K + K Res T (iterated_amplitudes in IterSpec.v), where K and
   Res are those of C91.  f is what the solver finds in the cell before its array (it reads it: see C93_refuted). *)
Theorem C93_partial diag sort_indexes mem cmem pmem getrf f fb g J_2N_max two_J_3N_max iso mid ss c states Nq q pot junk vg inputs res :
  (forall keys, sort_indexes_contract keys (sort_indexes keys)) -> getrf_contract getrf ->
  allocates mem -> allocates cmem -> allocates pmem ->
  (1 <= two_J_3N_max)%Z -> Z.Odd two_J_3N_max -> construct_symmetric_pw_states_g g J_2N_max two_J_3N_max iso = Ok ss ->
  (0 <= c < ss_N_chn ss)%Z -> channel_slice ss c = Ok states ->
  (mid = false \/ iso = false) -> hermitian_model pot (ss_states ss) -> vgrid_ok mid vg -> 3 <= vg_Np vg -> 1 <= Nq ->
  partition_from_zero Nq q ->
  let N := length states in let D := N * Nq * vg_Np vg in
  let p := vg_pWP vg in
  (Z.of_nat D <= 2 ^ 28)%Z ->
  (forall row col v, In (row, col, v) res -> (0 <= row < Z.of_nat D)%Z /\ (0 <= col < Z.of_nat D)%Z) ->
  (forall V, fresh_potential mem iso mid J_2N_max pot junk vg (ss_states ss) = Ok V ->
     solves diag (vg_Np vg) p V (num_channels iso J_2N_max) /\
     forall cm i, is_channel iso (ss_states ss) cm i -> let w := fst (spectrum diag (vg_Np vg) p V cm i) in
       increasing w /\ forall k, k < dim2 cm (vg_Np vg) -> nth k w 0%R <> 0%R /\ (- (Mn + Mp) < nth k w 0)%R) ->
  let run := channel_iterate diag sort_indexes mem cmem pmem (determinant getrf) (Some f, Some fb) false iso mid J_2N_max Nq q pot junk vg ss c inputs res in
  (run = Err /\ stops_because diag mem J_2N_max iso mid ss states Nq q pot junk vg inputs false) \/
  exists r, run = Ok r /\
    channel_report diag mem J_2N_max iso mid ss states Nq q pot junk vg inputs false (fun i j => PermWholeSpec.entry res (Z.of_nat i) (Z.of_nat j)) r.
Proof.
  exact (fun H1 H2 H3 H4 H5 H6 H7 H8 H9 H10 H11 H12 H13 H14 H15 H16 H17 H18 H19 =>
    IterFinal.elastic_run diag sort_indexes mem cmem pmem getrf f fb g J_2N_max two_J_3N_max iso mid ss c states Nq q pot junk vg inputs res
      H1 H2 H3 H4 H5 H6 H7 H8 H9 H10 H11 H12 H13 H14 H15 H16 H17 H18 H19).
Qed.
Print Assumptions C93_partial.

(* C93 with breakup: the same run with include_breakup_channels.  Besides the errors there are three ways to leave the defined
   behaviour: a stored cell that is not in the grid, fewer energies than deuteron waves (C45_refuted), and the loop that ends
   too early (C45_refuted_break).  In every other case the run returns, with the cells of breakup_list and the amplitudes. *)
Theorem C93_breakup_partial diag sort_indexes mem cmem pmem getrf f fb g J_2N_max two_J_3N_max iso mid ss c states Nq q pot junk vg inputs res :
  (forall keys, sort_indexes_contract keys (sort_indexes keys)) -> getrf_contract getrf ->
  allocates mem -> allocates cmem -> allocates pmem ->
  (1 <= two_J_3N_max)%Z -> Z.Odd two_J_3N_max -> construct_symmetric_pw_states_g g J_2N_max two_J_3N_max iso = Ok ss ->
  (0 <= c < ss_N_chn ss)%Z -> channel_slice ss c = Ok states ->
  (mid = false \/ iso = false) -> hermitian_model pot (ss_states ss) -> vgrid_ok mid vg -> 3 <= vg_Np vg -> 1 <= Nq ->
  partition_from_zero Nq q ->
  let N := length states in let D := N * Nq * vg_Np vg in
  let p := vg_pWP vg in
  (Z.of_nat D <= 2 ^ 28)%Z ->
  (forall row col v, In (row, col, v) res -> (0 <= row < Z.of_nat D)%Z /\ (0 <= col < Z.of_nat D)%Z) ->
  (forall V, fresh_potential mem iso mid J_2N_max pot junk vg (ss_states ss) = Ok V ->
     solves diag (vg_Np vg) p V (num_channels iso J_2N_max) /\
     forall cm i, is_channel iso (ss_states ss) cm i -> let w := fst (spectrum diag (vg_Np vg) p V cm i) in
       increasing w /\ forall k, k < dim2 cm (vg_Np vg) -> nth k w 0%R <> 0%R /\ (- (Mn + Mp) < nth k w 0)%R) ->
  let stages := channel_stages diag sort_indexes mem cmem pmem true iso mid J_2N_max Nq q pot junk vg ss c inputs res in
  let run := channel_iterate diag sort_indexes mem cmem pmem (determinant getrf) (Some f, Some fb) true iso mid J_2N_max Nq q pot junk vg ss c inputs res in
  (run = Err /\ stops_because diag mem J_2N_max iso mid ss states Nq q pot junk vg inputs true) \/
  (run = UB /\ (cell_off_grid diag mem J_2N_max iso mid ss states Nq q pot junk vg inputs \/
     exists r, stages = Ok r /\
       (length (os_T (cr_os r)) < length (cr_ds r) /\ fst (cr_bu r) <> [] \/ stopped_early (determinant getrf) (Some f, Some fb) r))) \/
  exists r, run = Ok r /\
    channel_report diag mem J_2N_max iso mid ss states Nq q pot junk vg inputs true (fun i j => PermWholeSpec.entry res (Z.of_nat i) (Z.of_nat j)) r.
Proof.
  intros H1 H2 H3 H4 H5 H6 H7 H8 H9 H10 H11 H12 H13 H14 H15 H16 N D p H17 H18 H19 stages run.
  destruct (IterFinal.breakup_run diag sort_indexes mem cmem pmem getrf f fb g J_2N_max two_J_3N_max iso mid ss c states Nq q pot junk vg inputs res
      H1 H2 H3 H4 H5 H6 H7 H8 H9 H10 H11 H12 H13 H14 H15 H16 H17 H18 H19) as [H|[H|(r & E & H & _)]]; [ left; exact H | right; left; exact H | right; right; exists r; auto ].
Qed.
Print Assumptions C93_breakup_partial.

(* The series in iterated_amplitudes is that of the amplitudes: every solution T of T = K + K Res T is the sum of the first
   terms K (Res K)^m and a remainder K (Res K)^n Res T, for every n. *)
Theorem C93_series D K Res T n x y : ags_solution D K Res T -> x < D -> y < D ->
  T x y = cadd (ctotal (fun m => born_term D K Res m x y) (S n))
    (ctotal (fun z => cmul (ctotal (fun t => cmul (born_term D K Res n x t) (Res t z)) D) (T z y)) D).
Proof. exact (fun H Hx Hy => IterMatrix.born_series n H Hx Hy). Qed.
Print Assumptions C93_series.

(* C93, the whole channel without breakup: with the permutation matrix computed by the run itself (threads, schedule and files as in C91). *)
Theorem C93_whole_channel_partial (sixj : Z -> Z -> Z -> Z -> Z -> Z -> R) (ninej : Z -> Z -> Z -> Z -> Z -> Z -> Z -> Z -> Z -> R)
    (threej : Z -> Z -> Z -> Z -> Z -> Z -> R) (sphP : Z -> Z -> R -> R) (legblock : Z -> R -> list R) (legsize : Z -> Z)
    roots dleg xs wxs phi0 wphi0 tab0 jk
    diag sort_indexes mem cmem pmem getrf f fb g J_2N_max two_J_3N_max iso mid ss c states Nq q pot junk vg inputs :
  let n := length roots in let Np := vg_Np vg in let p := vg_pWP vg in
  let N := length states in let D := N * Nq * Np in
  (* library routines *)
  threej_rule threej -> ninej_rule ninej -> legendre_rule sphP legblock legsize ->
  (forall keys, sort_indexes_contract keys (sort_indexes keys)) -> getrf_contract getrf ->
  allocates mem -> allocates cmem -> allocates pmem ->
  (* model space, channel, grids, interaction *)
  (1 <= two_J_3N_max)%Z -> Z.Odd two_J_3N_max -> construct_symmetric_pw_states_g g J_2N_max two_J_3N_max iso = Ok ss ->
  (0 <= c < ss_N_chn ss)%Z -> channel_slice ss c = Ok states ->
  (mid = false \/ iso = false) -> hermitian_model pot (ss_states ss) -> vgrid_ok mid vg -> 3 <= Np -> 1 <= Nq ->
  partition_from_zero Np p -> partition_from_zero Nq q -> (Z.of_nat D <= 2 ^ 28)%Z ->
  (forall V, fresh_potential mem iso mid J_2N_max pot junk vg (ss_states ss) = Ok V ->
     solves diag Np p V (num_channels iso J_2N_max) /\
     forall cm i, is_channel iso (ss_states ss) cm i -> let w := fst (spectrum diag Np p V cm i) in
       increasing w /\ forall k, k < dim2 cm Np -> nth k w 0%R <> 0%R /\ (- (Mn + Mp) < nth k w 0)%R) ->
  (* quadratures and arrays of the permutation matrix *)
  mesh_in (-1) 1 roots -> mesh_in (-1) 1 xs -> length wxs = length xs ->
  length phi0 = Nq * Np * n -> length wphi0 = Nq * Np * n -> length tab0 = Nq * Nq * Np * Np -> allocated legsize states Np Nq n (length xs) jk ->
  exists phi wphi tab t rows,
    calculate_WP_overlap roots dleg Np Nq p q xs (phi0, wphi0, tab0) = Ok (phi, wphi, tab) /\
    geo_tables sixj ninej threej legblock legsize states Np Nq n phi xs jk = Ok t /\
    (forall qp G0, qp < Nq -> length G0 = n * length xs ->
       row_work legsize states t roots Np Nq p q phi wphi xs wxs tab qp G0 = Ok (rows qp)) /\
    forall veqb srt folder J2max B T buf0 fs0 evs,
      decides_eq veqb -> sorts srt -> 1 <= B ->
      let name t k := subarray_file_name folder (fst (nth_chn c)) (snd (nth_chn c)) (Z.of_nat Np) (Z.of_nat Nq) J2max (Z.of_nat t) (Z.of_nat k) in
      (forall t k, t < T -> k <= length evs -> String.length (name t k) < 300) ->
      (forall t, length (buf0 t) = B) -> (forall ev, In ev evs -> fst ev < T) ->
      Permutation (map snd evs) (flat_map rows (seq 0 Nq)) ->
      exists fs res, build R veqb name (mkspace R Np p Nq q states) srt (Z.of_nat D) B T buf0 fs0 evs = Ok (fs, res) /\
      let run := channel_iterate diag sort_indexes mem cmem pmem (determinant getrf) (Some f, Some fb) false iso mid J_2N_max Nq q pot junk vg ss c inputs res in
      (run = Err /\ stops_because diag mem J_2N_max iso mid ss states Nq q pot junk vg inputs false) \/
      exists r P, run = Ok r /\
        (forall a iq i a' iq' i', valid3 N Nq Np (a, iq, i) -> valid3 N Nq Np (a', iq', i') ->
           permutation_element sixj ninej threej sphP roots dleg xs wxs p q (nth a states dummy_pw) (nth a' states dummy_pw) iq i iq' i'
             (P (idx3 Nq Np (a, iq, i)) (idx3 Nq Np (a', iq', i')))) /\
        channel_report diag mem J_2N_max iso mid ss states Nq q pot junk vg inputs false P r.
Proof.
  intros n Np p N D R3 R9 RL Msort Msolve Mm Mc Mpt Hmx Hodd Hss Hc Hsl Hmid Hpot Hg HNp HNq Pp Pq HD Hdiag Mr Mx Lw L1 L2 L3 Hal.
  destruct (PermWholeProofs.whole_matrix sixj ninej threej sphP legblock legsize g J_2N_max two_J_3N_max iso ss c states roots dleg Np Nq p q xs wxs phi0 wphi0 tab0 jk
    R3 R9 RL Hmx Hodd Hss Hc Hsl Pp Pq Mr Mx Lw L1 L2 L3 Hal) as (phi & wphi & tab & t & rows & E1 & E2 & E3 & H).
  exists phi, wphi, tab, t, rows. split; [ exact E1 | ]. split; [ exact E2 | ]. split; [ exact E3 | ].
  intros veqb srt folder J2max B T buf0 fs0 evs Hv Hs HB name Hn Hb He Hp.
  destruct (H veqb srt folder J2max B T buf0 fs0 evs Hv Hs HB Hn Hb He Hp) as (fs & res & EB & _ & Hin & Hent). exists fs, res. split; [ exact EB | ]. intros run.
  destruct (C93_partial diag sort_indexes mem cmem pmem getrf f fb g J_2N_max two_J_3N_max iso mid ss c states Nq q pot junk vg inputs res
    Msort Msolve Mm Mc Mpt Hmx Hodd Hss Hc Hsl Hmid Hpot Hg HNp HNq Pq HD (fun row col v Hi => proj2 (Hin row col v Hi)) Hdiag) as [HE|(r & Er & HR)]; [ left; exact HE | ].
  right. exists r, (fun i j => PermWholeSpec.entry res (Z.of_nat i) (Z.of_nat j)). split; [ exact Er | ]. split; [ | exact HR ].
  intros a iq i a' iq' i' (A1 & A2 & A3) (B1 & B2 & B3).
  destruct (Hent a iq i a' iq' i' _ _ (nth_error_nth' states dummy_pw A1) (nth_error_nth' states dummy_pw B1) A2 A3 B2 B3) as (v & Hv1 & Hv2).
  exists v. split; [ exact Hv1 | ]. rewrite <- Hv2. unfold idx3. f_equal; lia.
Qed.
Print Assumptions C93_whole_channel_partial.

(* In the C++ language the read of the cell before the array is undefined behaviour, and every run that has an energy and a
   deuteron wave does it. *)
Theorem C93_refuted diag sort_indexes mem cmem pmem getrf f fb sb g J_2N_max two_J_3N_max iso mid ss c states Nq q pot junk vg inputs res bu r :
  (forall keys, sort_indexes_contract keys (sort_indexes keys)) -> getrf_contract getrf ->
  allocates mem -> allocates cmem -> allocates pmem ->
  (1 <= two_J_3N_max)%Z -> Z.Odd two_J_3N_max -> construct_symmetric_pw_states_g g J_2N_max two_J_3N_max iso = Ok ss ->
  (0 <= c < ss_N_chn ss)%Z -> channel_slice ss c = Ok states ->
  (mid = false \/ iso = false) -> hermitian_model pot (ss_states ss) -> vgrid_ok mid vg -> 3 <= vg_Np vg -> 1 <= Nq ->
  partition_from_zero Nq q ->
  let N := length states in let D := N * Nq * vg_Np vg in
  let p := vg_pWP vg in
  (Z.of_nat D <= 2 ^ 28)%Z ->
  (forall row col v, In (row, col, v) res -> (0 <= row < Z.of_nat D)%Z /\ (0 <= col < Z.of_nat D)%Z) ->
  (forall V, fresh_potential mem iso mid J_2N_max pot junk vg (ss_states ss) = Ok V ->
     solves diag (vg_Np vg) p V (num_channels iso J_2N_max) /\
     forall cm i, is_channel iso (ss_states ss) cm i -> let w := fst (spectrum diag (vg_Np vg) p V cm i) in
       increasing w /\ forall k, k < dim2 cm (vg_Np vg) -> nth k w 0%R <> 0%R /\ (- (Mn + Mp) < nth k w 0)%R) ->
  let run memory := channel_iterate diag sort_indexes mem cmem pmem (determinant getrf) memory bu iso mid J_2N_max Nq q pot junk vg ss c inputs res in
  run (Some f, Some fb) = Ok r -> 0 < length (cr_ds r) -> 0 < length (os_T (cr_os r)) -> run (None, sb) = UB.
Proof.
  exact (fun H1 H2 H3 H4 H5 H6 H7 H8 H9 H10 H11 H12 H13 H14 H15 H16 H17 H18 H19 =>
    IterFinal.strict_run diag sort_indexes mem cmem pmem getrf f fb g J_2N_max two_J_3N_max iso mid ss c states Nq q pot junk vg inputs res
      H1 H3 H4 H5 H6 H7 H8 H9 H10 H11 H12 H13 H14 H15 H16 H17 H18 H19 bu sb r).
Qed.
Print Assumptions C93_refuted.

(* The run of C91_example with the iterative solver: it returns, with two energies and the deuteron wave number 4, so that all
   the theorems above apply to it; in the language's view it is undefined. *)
Import ChainExample.
Definition ex93 getrf memory ss := channel_iterate SpectralProps.ex6_diag isort ex9_mem ex9_cmem ex9_pmem (determinant getrf) memory false
  false true 1 2 ex9_q ex9_pot (0, 0)%R ex9_vg ss 0 ex9_inputs ex9_res.
Example C93_example : exists ss states getrf, construct_symmetric_pw_states_g 0 1 1 false = Ok ss /\ channel_slice ss 0 = Ok states /\ length states = 10 /\
  getrf_contract getrf /\ (forall sb, ex93 getrf (None, sb) ss = UB) /\
  forall f fb, exists r, ex93 getrf (Some f, Some fb) ss = Ok r /\ length (os_T (cr_os r)) = 2 /\ In 4 (cr_ds r) /\
    channel_report SpectralProps.ex6_diag ex9_mem 1 false true ss states 2 ex9_q ex9_pot (0, 0)%R ex9_vg ex9_inputs false
      (fun i j => PermWholeSpec.entry ex9_res (Z.of_nat i) (Z.of_nat j)) r.
Proof.
  destruct ex9_tables as (ss & states & Ess & Esl & Ls & Lc & Hd & H4). destruct DetExists.solve_exists as (solve & Hsolve).
  destruct DetExists.getrf_exists as (getrf & Hgetrf).
  assert (Hr : forall row col v, In (row, col, v) ex9_res -> (0 <= row < Z.of_nat (length states * 2 * 3))%Z /\ (0 <= col < Z.of_nat (length states * 2 * 3))%Z).
  { intros row col v [E|[]]. injection E as <- <- <-. rewrite Ls. cbn. lia. }
  destruct (ex9_runs ss states solve ex9_res Ess Esl Ls Lc Hd H4 Hsolve Hr) as (r0 & Er0 & HT0 & H40).
  unfold channel_run in Er0.
  destruct (channel_stages SpectralProps.ex6_diag isort ex9_mem ex9_cmem ex9_pmem false false true 1 2 ex9_q ex9_pot (0, 0)%R ex9_vg ss 0 ex9_inputs ex9_res) as [r1| | |] eqn:E1; try discriminate Er0.
  cbn [obind] in Er0. destruct (dense_solver _ _ _) as [U0| | |]; try discriminate Er0. cbn [obind] in Er0. injection Er0 as <-. cbn [with_amplitudes cr_os cr_ds] in HT0, H40.
  assert (X : forall f fb, exists r, ex93 getrf (Some f, Some fb) ss = Ok r /\ length (os_T (cr_os r)) = 2 /\ In 4 (cr_ds r) /\
    channel_report SpectralProps.ex6_diag ex9_mem 1 false true ss states 2 ex9_q ex9_pot (0, 0)%R ex9_vg ex9_inputs false
      (fun i j => PermWholeSpec.entry ex9_res (Z.of_nat i) (Z.of_nat j)) r).
  { intros f fb. destruct (IterFinal.elastic_after SpectralProps.ex6_diag isort ex9_mem ex9_cmem ex9_pmem getrf f fb 0 1 1 false true ss 0 states 2 ex9_q ex9_pot (0, 0)%R ex9_vg ex9_inputs ex9_res)
      with (r := r1) as (U & UBU & E2 & H2); try assumption.
    - exact isort_ok.
    - intros k n. apply repeat_length.
    - intros k n. apply repeat_length.
    - intros k n. apply repeat_length.
    - lia.
    - exists 0%Z. reflexivity.
    - lia.
    - right. reflexivity.
    - apply ex9_hermitian.
    - exact ex9_grid.
    - cbn. lia.
    - lia.
    - exact ex9_part.
    - rewrite Ls. discriminate.
    - intros V. exact (ex9_spectra ss V Ess).
    - eexists. split; [ exact E2 | ]. cbn [with_amplitudes cr_os cr_ds]. auto. }
  exists ss, states, getrf. do 4 (split; [ assumption | ]). split; [ | exact X ]. intros sb.
  destruct (X (fun _ => c0) (fun _ => c0)) as (r & Er & L & I4 & _).
  apply (C93_refuted SpectralProps.ex6_diag isort ex9_mem ex9_cmem ex9_pmem getrf (fun _ => c0) (fun _ => c0) sb 0 1 1 false true ss 0 states 2 ex9_q ex9_pot (0, 0)%R ex9_vg ex9_inputs ex9_res false r);
    try assumption.
  - exact isort_ok.
  - intros k n. apply repeat_length.
  - intros k n. apply repeat_length.
  - intros k n. apply repeat_length.
  - lia.
  - exists 0%Z. reflexivity.
  - lia.
  - right. reflexivity.
  - apply ex9_hermitian.
  - exact ex9_grid.
  - cbn. lia.
  - lia.
  - exact ex9_part.
  - rewrite Ls. discriminate.
  - intros V. exact (ex9_spectra ss V Ess).
  - destruct (cr_ds r); [ destruct I4 | cbn; lia ].
  - lia.
Qed.
