(* Specification of reproducibility (C92): which environments are allowed, and what two results have in common. *)
From Coq Require Import Reals String.
From Verif Require Import Common PWModel PWSpec SwpModel SwpSpec SparseModel GridSpec PermModel PermSpec GeoModel NameModel PioModel PioSpec PotentialModel PotentialSpec KernelSpec
  SwpWholeModel SwpWholeSpec SpectralSpec OnShellModel OnShellSpec FaddeevModel FaddeevSpec DetModel DenseModel PadeSpec AgsSpec ChainModel ChainSpec ReproModel.
Open Scope nat_scope.

(* library routines do what they promise, new[] returns arrays of the requested length, there is at least one place in each
   thread's buffer, the schedule names existing threads, and file names fit in their buffer *)
Record environment_ok (legsize : Z -> Z) (Nphi Nx : nat) (iso mid : bool) (J_2N_max : Z) (Nq : nat) (pot : potmodel) (vg : vgrid)
    (ss : statespace) (c : Z) (states : list pw) (E : environment) : Prop := mkeok {
  eo_sort : forall keys, sort_indexes_contract keys (en_sort E keys);
  eo_solve : solve_contract (en_solve E);
  eo_mem : allocates (en_mem E);
  eo_cmem : allocates (en_cmem E);
  eo_pmem : allocates (en_pmem E);
  (* eigensolver: decomposes the Hamiltonians; spectra without degeneracy or eigenvalue 0, above minus the deuteron mass *)
  eo_diag : forall V, fresh_potential (en_mem E) iso mid J_2N_max pot (en_junk E) vg (ss_states ss) = Ok V ->
     solves (en_diag E) (vg_Np vg) (vg_pWP vg) V (num_channels iso J_2N_max) /\
     forall cm i, is_channel iso (ss_states ss) cm i -> let w := fst (spectrum (en_diag E) (vg_Np vg) (vg_pWP vg) V cm i) in
       increasing w /\ forall k, k < dim2 cm (vg_Np vg) -> nth k w 0%R <> 0%R /\ (- (Mn + Mp) < nth k w 0)%R;
  eo_arrays : length (en_phi E) = Nq * vg_Np vg * Nphi /\ length (en_wphi E) = Nq * vg_Np vg * Nphi /\
     length (en_tab E) = Nq * Nq * vg_Np vg * vg_Np vg /\ allocated legsize states (vg_Np vg) Nq Nphi Nx (en_geo E) /\
     forall qp, length (en_G E qp) = Nphi * Nx;
  eo_eq : decides_eq (en_veqb E);
  eo_srt : sorts (en_srt E);
  eo_buf : 1 <= en_B E /\ forall t, length (en_buf E t) = en_B E;
  eo_threads : forall ev, In ev (en_evs E) -> fst ev < en_T E;
  eo_names : forall t k, t < en_T E -> k <= length (en_evs E) ->
     String.length (subarray_file_name (en_folder E) (fst (nth_chn c)) (snd (nth_chn c)) (Z.of_nat (vg_Np vg)) (Z.of_nat Nq) J_2N_max (Z.of_nat t) (Z.of_nat k)) < 300 }.

(* P holds the permutation operator of the channel (permutation_element) *)
Definition permutation_operator sixj ninej threej sphP roots dleg xs wxs (p q : list R) (states : list pw) (Nq Np : nat) (P : nat -> nat -> R) : Prop :=
  forall a iq i a' iq' i', valid3 (length states) Nq Np (a, iq, i) -> valid3 (length states) Nq Np (a', iq', i') ->
    permutation_element sixj ninej threej sphP roots dleg xs wxs p q (nth a states dummy_pw) (nth a' states dummy_pw) iq i iq' i'
      (P (idx3 Nq Np (a, iq, i)) (idx3 Nq Np (a', iq', i'))).

(* Two results agree: same states, potential, bound-state energy, energies and their bins, deuteron waves, and the same
   amplitude at every energy at which the scattering equation has at most one solution (in whatever wave packets and
   permutation operator one writes it down, and some exist). *)
Definition same_result (mid : bool) (pot : potmodel) (vg : vgrid) (Nq : nat) (q : list R) (states : list pw)
    (operator : (nat -> nat -> R) -> Prop) (r1 r2 : chan_result) : Prop :=
  let Np := vg_Np vg in let V3 := potential3 mid pot vg states in let Eb := sw_Eb (cr_swp r1) in
  let ne := length (os_T (cr_os r1)) in let nd := length (cr_ds r1) in
  cr_states r1 = states /\ cr_states r2 = states /\
  cr_V r1 = cr_V r2 /\ sw_Eb (cr_swp r1) = sw_Eb (cr_swp r2) /\ cr_os r1 = cr_os r2 /\ cr_ds r1 = cr_ds r2 /\
  length (cr_U r1) = ne * nd * nd /\ length (cr_U r2) = ne * nd * nd /\
  (exists P C lam edge, operator P /\ wave_packets states Nq Np (vg_pWP vg) V3 Eb C lam edge) /\
  forall P C lam edge, operator P -> wave_packets states Nq Np (vg_pWP vg) V3 Eb C lam edge ->
    forall dr dc j, dr < nd -> dc < nd -> j < ne ->
      ags_regular (length states * Nq * Np) (kernel_2PV states Nq Np P V3)
        (averaged_resolvent states Nq Np q C edge (nth j (os_E (cr_os r1)) 0 + Eb)%R) ->
      nth (dr * nd * ne + dc * ne + j) (cr_U r1) c0 = nth (dr * nd * ne + dc * ne + j) (cr_U r2) c0.
