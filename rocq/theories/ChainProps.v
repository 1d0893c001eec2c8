(* Property theorems: the result of one three-nucleon channel, end to end (C91). *)
From Coq Require Import Reals Lra Lia Permutation Sorted String ZifyBool.
From Verif Require Import Common ArrayLib PWModel PWSpec SwpModel SwpSpec SparseModel GridSpec PermModel PermSpec PermWholeModel PermWholeSpec
  GeoModel GeoSpec NameModel PioModel PioSpec
  KernelModel KernelSpec PotentialModel PotentialSpec ResolventModel SwpWholeModel SwpWholeSpec SpectralSpec OnShellModel OnShellSpec
  FaddeevModel FaddeevSpec DetModel DenseModel PadeSpec AgsSpec ChainModel ChainSpec.
From Verif Require ChainFinal PermWholeProofs.
Open Scope nat_scope.
Open Scope list_scope.

(* C91, from the elements of the permutation matrix to the amplitudes: the work of main on one channel (tensor force on,
   direct solver), for every interaction that is Hermitian, every grid, every model space, every uninitialised memory.
   Library routines by contract (eigensolver, index sort, linear solver); spectra without degeneracy or eigenvalue 0 and
   above minus the deuteron mass.  The run either stops with an error, because a two-nucleon channel does not have the right
   number of bound states or because an on-shell momentum has no bin, or it returns: the deuteron waves of the channel, the
   energies with their momenta inside their bins, and the amplitudes of the interaction itself (amplitudes_of). *)
Theorem C91_channel diag sort_indexes solve mem cmem pmem g J_2N_max two_J_3N_max iso mid ss c states Nq q pot junk vg inputs res :
  (forall keys, sort_indexes_contract keys (sort_indexes keys)) -> solve_contract solve ->
  allocates mem -> allocates cmem -> allocates pmem ->
  (1 <= two_J_3N_max)%Z -> Z.Odd two_J_3N_max -> construct_symmetric_pw_states_g g J_2N_max two_J_3N_max iso = Ok ss ->
  (0 <= c < ss_N_chn ss)%Z -> channel_slice ss c = Ok states ->
  (mid = false \/ iso = false) -> hermitian_model pot (ss_states ss) -> vgrid_ok mid vg -> 3 <= vg_Np vg -> 1 <= Nq ->
  partition_from_zero Nq q ->
  let N := length states in let D := N * Nq * vg_Np vg in
  let p := vg_pWP vg in
  (Z.of_nat D < 2 ^ 31)%Z ->
  (forall row col v, In (row, col, v) res -> (0 <= row < Z.of_nat D)%Z /\ (0 <= col < Z.of_nat D)%Z) ->
  (forall V, fresh_potential mem iso mid J_2N_max pot junk vg (ss_states ss) = Ok V ->
     solves diag (vg_Np vg) p V (num_channels iso J_2N_max) /\
     forall cm i, is_channel iso (ss_states ss) cm i -> let w := fst (spectrum diag (vg_Np vg) p V cm i) in
       increasing w /\ forall k, k < dim2 cm (vg_Np vg) -> nth k w 0%R <> 0%R /\ (- (Mn + Mp) < nth k w 0)%R) ->
  let run := channel_run diag sort_indexes solve mem cmem pmem iso mid J_2N_max Nq q pot junk vg ss c inputs res in
  (run = Err /\
   ((exists V cm i, fresh_potential mem iso mid J_2N_max pot junk vg (ss_states ss) = Ok V /\ is_channel iso (ss_states ss) cm i /\
       ~ bound_states_ok (is_deuteron_channel iso (ss_states ss) cm i) (fst (spectrum diag (vg_Np vg) p V cm i))) \/
    (exists V Eb, fresh_potential mem iso mid J_2N_max pot junk vg (ss_states ss) = Ok V /\
       bound_energy iso (ss_states ss) (fun cm i => fst (spectrum diag (vg_Np vg) p V cm i)) Eb /\ elastic_bins Nq q Eb inputs = Err))) \/
  exists r, run = Ok r /\ cr_states r = states /\
    let Eb := sw_Eb (cr_swp r) in let os := cr_os r in let ds := cr_ds r in let ne := length (os_T os) in
    fresh_potential mem iso mid J_2N_max pot junk vg (ss_states ss) = Ok (cr_V r) /\
    (forall cm i, is_channel iso (ss_states ss) cm i ->
       bound_states_ok (is_deuteron_channel iso (ss_states ss) cm i) (fst (spectrum diag (vg_Np vg) p (cr_V r) cm i))) /\
    bound_energy iso (ss_states ss) (fun cm i => fst (spectrum diag (vg_Np vg) p (cr_V r) cm i)) Eb /\
    elastic_bins Nq q Eb inputs = Ok os /\
    length (os_q os) = ne /\ length (os_E os) = ne /\ length (os_idx os) = ne /\ length (cr_U r) = ne * length ds * length ds /\
    (forall j, j < ne -> let k := nth j (os_q os) 0%R in let b := nth j (os_idx os) 0 in
       b < Nq /\ (GridSpec.lower q b < k < GridSpec.upper q b)%R /\ com_momentum_of Mp (Mn + Mp + Eb) (nth j (os_T os) 0%R) k /\
       nth j (os_E os) 0%R = (3 * k * k / (4 * MN))%R) /\
    StronglySorted lt ds /\ (forall i, In i ds <-> i < N /\ is_deuteron (nth i states dummy_pw)) /\
    amplitudes_of states Nq (vg_Np vg) p q (potential3 mid pot vg states) (fun i j => PermWholeSpec.entry res (Z.of_nat i) (Z.of_nat j))
      Eb (os_E os) (os_idx os) ds (cr_U r).
Proof.
  exact (fun H1 H2 H3 H4 H5 H6 H7 H8 H9 H10 H11 H12 H13 H14 H15 H16 H17 H18 H19 =>
    ChainFinal.chain_c91 diag sort_indexes solve mem cmem pmem g J_2N_max two_J_3N_max iso mid ss c states Nq q pot junk vg inputs res
      H1 H2 H3 H4 H5 H6 H7 H8 H9 H10 H11 H12 H13 H14 H15 H16 H17 H18 H19).
Qed.
Print Assumptions C91_channel.

(* C91, the whole channel: the same with the permutation matrix computed by the run itself, with any number of threads, any
   schedule and any files on disk.  No array of the program appears in the equation: the amplitudes returned are those of
   the interaction pot and of the permutation operator, discretised on the grids. *)
Theorem C91_whole_channel (sixj : Z -> Z -> Z -> Z -> Z -> Z -> R) (ninej : Z -> Z -> Z -> Z -> Z -> Z -> Z -> Z -> Z -> R)
    (threej : Z -> Z -> Z -> Z -> Z -> Z -> R) (sphP : Z -> Z -> R -> R) (legblock : Z -> R -> list R) (legsize : Z -> Z)
    roots dleg xs wxs phi0 wphi0 tab0 jk
    diag sort_indexes solve mem cmem pmem g J_2N_max two_J_3N_max iso mid ss c states Nq q pot junk vg inputs :
  let n := length roots in let Np := vg_Np vg in let p := vg_pWP vg in
  let N := length states in let D := N * Nq * Np in
  (* library routines *)
  threej_rule threej -> ninej_rule ninej -> legendre_rule sphP legblock legsize ->
  (forall keys, sort_indexes_contract keys (sort_indexes keys)) -> solve_contract solve ->
  allocates mem -> allocates cmem -> allocates pmem ->
  (* model space, channel, grids, interaction *)
  (1 <= two_J_3N_max)%Z -> Z.Odd two_J_3N_max -> construct_symmetric_pw_states_g g J_2N_max two_J_3N_max iso = Ok ss ->
  (0 <= c < ss_N_chn ss)%Z -> channel_slice ss c = Ok states ->
  (mid = false \/ iso = false) -> hermitian_model pot (ss_states ss) -> vgrid_ok mid vg -> 3 <= Np -> 1 <= Nq ->
  partition_from_zero Np p -> partition_from_zero Nq q -> (Z.of_nat D < 2 ^ 31)%Z ->
  (forall V, fresh_potential mem iso mid J_2N_max pot junk vg (ss_states ss) = Ok V ->
     solves diag Np p V (num_channels iso J_2N_max) /\
     forall cm i, is_channel iso (ss_states ss) cm i -> let w := fst (spectrum diag Np p V cm i) in
       increasing w /\ forall k, k < dim2 cm Np -> nth k w 0%R <> 0%R /\ (- (Mn + Mp) < nth k w 0)%R) ->
  (* quadratures and arrays of the permutation matrix *)
  mesh_in (-1) 1 roots -> mesh_in (-1) 1 xs -> length wxs = length xs ->
  length phi0 = Nq * Np * n -> length wphi0 = Nq * Np * n -> length tab0 = Nq * Nq * Np * Np -> allocated legsize states Np Nq n (length xs) jk ->
  exists phi wphi tab t rows,
    calculate_WP_overlap roots dleg Np Nq p q xs (phi0, wphi0, tab0) = Ok (phi, wphi, tab) /\
    geo_tables sixj ninej threej legblock legsize states Np Nq n phi xs jk = Ok t /\
    (forall qp G0, qp < Nq -> length G0 = n * length xs ->
       row_work legsize states t roots Np Nq p q phi wphi xs wxs tab qp G0 = Ok (rows qp)) /\
    forall veqb srt folder J2max B T buf0 fs0 evs,
      decides_eq veqb -> sorts srt -> 1 <= B ->
      let name t k := subarray_file_name folder (fst (nth_chn c)) (snd (nth_chn c)) (Z.of_nat Np) (Z.of_nat Nq) J2max (Z.of_nat t) (Z.of_nat k) in
      (forall t k, t < T -> k <= length evs -> String.length (name t k) < 300) ->
      (forall t, length (buf0 t) = B) -> (forall ev, In ev evs -> fst ev < T) ->
      Permutation (map snd evs) (flat_map rows (seq 0 Nq)) ->
      exists fs res, build R veqb name (mkspace R Np p Nq q states) srt (Z.of_nat D) B T buf0 fs0 evs = Ok (fs, res) /\
      let run := channel_run diag sort_indexes solve mem cmem pmem iso mid J_2N_max Nq q pot junk vg ss c inputs res in
      (run = Err /\
       ((exists V cm i, fresh_potential mem iso mid J_2N_max pot junk vg (ss_states ss) = Ok V /\ is_channel iso (ss_states ss) cm i /\
           ~ bound_states_ok (is_deuteron_channel iso (ss_states ss) cm i) (fst (spectrum diag Np p V cm i))) \/
        (exists V Eb, fresh_potential mem iso mid J_2N_max pot junk vg (ss_states ss) = Ok V /\
           bound_energy iso (ss_states ss) (fun cm i => fst (spectrum diag Np p V cm i)) Eb /\ elastic_bins Nq q Eb inputs = Err))) \/
      exists r, run = Ok r /\
        let Eb := sw_Eb (cr_swp r) in let os := cr_os r in let ds := cr_ds r in let ne := length (os_T os) in
        (forall cm i, is_channel iso (ss_states ss) cm i ->
           bound_states_ok (is_deuteron_channel iso (ss_states ss) cm i) (fst (spectrum diag Np p (cr_V r) cm i))) /\
        bound_energy iso (ss_states ss) (fun cm i => fst (spectrum diag Np p (cr_V r) cm i)) Eb /\
        elastic_bins Nq q Eb inputs = Ok os /\ length (os_E os) = ne /\ length (cr_U r) = ne * length ds * length ds /\
        (forall j, j < ne -> let k := nth j (os_q os) 0%R in let b := nth j (os_idx os) 0 in
           b < Nq /\ (GridSpec.lower q b < k < GridSpec.upper q b)%R /\ com_momentum_of Mp (Mn + Mp + Eb) (nth j (os_T os) 0%R) k /\
           nth j (os_E os) 0%R = (3 * k * k / (4 * MN))%R) /\
        StronglySorted lt ds /\ (forall i, In i ds <-> i < N /\ is_deuteron (nth i states dummy_pw)) /\
        exists P : nat -> nat -> R,
          (forall a iq i a' iq' i', valid3 N Nq Np (a, iq, i) -> valid3 N Nq Np (a', iq', i') ->
             permutation_element sixj ninej threej sphP roots dleg xs wxs p q (nth a states dummy_pw) (nth a' states dummy_pw) iq i iq' i'
               (P (idx3 Nq Np (a, iq, i)) (idx3 Nq Np (a', iq', i')))) /\
          amplitudes_of states Nq Np p q (potential3 mid pot vg states) P Eb (os_E os) (os_idx os) ds (cr_U r).
Proof.
  intros n Np p N D R3 R9 RL Msort Msolve Mm Mc Mpt Hmx Hodd Hss Hc Hsl Hmid Hpot Hg HNp HNq Pp Pq HD Hdiag Mr Mx Lw L1 L2 L3 Hal.
  destruct (PermWholeProofs.whole_matrix sixj ninej threej sphP legblock legsize g J_2N_max two_J_3N_max iso ss c states roots dleg Np Nq p q xs wxs phi0 wphi0 tab0 jk
    R3 R9 RL Hmx Hodd Hss Hc Hsl Pp Pq Mr Mx Lw L1 L2 L3 Hal) as (phi & wphi & tab & t & rows & E1 & E2 & E3 & H).
  exists phi, wphi, tab, t, rows. split; [ exact E1 | ]. split; [ exact E2 | ]. split; [ exact E3 | ].
  intros veqb srt folder J2max B T buf0 fs0 evs Hv Hs HB name Hn Hb He Hp.
  destruct (H veqb srt folder J2max B T buf0 fs0 evs Hv Hs HB Hn Hb He Hp) as (fs & res & EB & _ & Hin & Hent). exists fs, res. split; [ exact EB | ]. intros run.
  destruct (C91_channel diag sort_indexes solve mem cmem pmem g J_2N_max two_J_3N_max iso mid ss c states Nq q pot junk vg inputs res
    Msort Msolve Mm Mc Mpt Hmx Hodd Hss Hc Hsl Hmid Hpot Hg HNp HNq Pq HD (fun row col v Hi => proj2 (Hin row col v Hi)) Hdiag) as [HE|(r & Er & _ & HR)]; [ left; exact HE | ].
  right. exists r. split; [ exact Er | ]. cbv zeta in HR |- *. destruct HR as (_ & Q0 & Q1 & Q2 & Q3 & Q4 & Q5 & Q6 & Q7 & Q8 & Q9 & Q10).
  do 5 (split; [ assumption | ]). split; [ exact Q7 | ]. split; [ exact Q8 | ]. split; [ exact Q9 | ].
  exists (fun i j => PermWholeSpec.entry res (Z.of_nat i) (Z.of_nat j)). split; [ | exact Q10 ].
  intros a iq i a' iq' i' (A1 & A2 & A3) (B1 & B2 & B3).
  destruct (Hent a iq i a' iq' i' _ _ (nth_error_nth' states dummy_pw A1) (nth_error_nth' states dummy_pw B1) A2 A3 B2 B3) as (v & Hv1 & Hv2).
  exists v. split; [ exact Hv1 | ]. rewrite <- Hv2. unfold idx3. f_equal; lia.
Qed.
Print Assumptions C91_whole_channel.
