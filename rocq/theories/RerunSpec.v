(* Specification for C95: when a machine is able to run the program, and when a channel has at most one solution. *)
From Coq Require Import Reals String.
From Verif Require Import Common NameModel ParamsModel ParamsSpec DriverModel DriverSpec InputModel PWModel PWSpec SwpModel GridSpec PermModel GeoModel PioModel PotentialModel
  SwpWholeModel SwpWholeSpec OnShellModel FaddeevSpec DetModel DenseModel AgsSpec ChainModel ChainSpec ReproModel ReproSpec ProgramModel ProgramSpec.
Open Scope nat_scope.

(* memory, schedules and library routines of the machine are as C94 requires, for every channel and parameter set of the run *)
Definition supported (lb : library) (cfg : config R) (vg : vgrid) (ss : statespace) (pot : Z -> potmodel) (mc : machine) : Prop :=
  (forall n, length (mc_grid mc n) = n) /\
  (forall c states, In c (channels_of cfg ss) -> channel_slice ss (Z.of_nat c) = Ok states ->
     (Z.of_nat (length states * cnat cfg F_Nq_WP * cnat cfg F_Np_WP) < 2 ^ 31)%Z /\ building_ok lb cfg (Z.of_nat c) states (mc_penv mc c) (mc_sched mc c)) /\
  (forall c psi, In (c, psi) (tasks (walk_of cfg) (channels_of cfg ss)) -> solving_ok cfg vg ss (pot psi) (mc_env mc c psi)).

(* the scattering equation of channel c with the interaction pot has at most one solution at each of the energies of the run *)
Definition uniquely_solvable (lb : library) (sphP : Z -> Z -> R -> R) (cfg : config R) (vg : vgrid) (q : list R) (ss : statespace)
    (pot : potmodel) (energies : list R) (c : nat) : Prop :=
  let mid := cflag cfg F_midpoint_approx in let Nq := cnat cfg F_Nq_WP in let Np := vg_Np vg in let p := vg_pWP vg in
  let Nphi := cnat cfg F_Nphi in let Nx := cnat cfg F_Nx in
  forall states Eb os P C lam edge, channel_slice ss (Z.of_nat c) = Ok states -> elastic_bins Nq q Eb energies = Ok os ->
    permutation_operator (lb_sixj lb) (lb_ninej lb) (lb_threej lb) sphP (lb_roots lb Nphi) (lb_dleg lb Nphi) (lb_gx lb Nx) (lb_gw lb Nx) p q states Nq Np P ->
    wave_packets states Nq Np p (potential3 mid pot vg states) Eb C lam edge ->
    forall j, j < length (os_T os) ->
      ags_regular (length states * Nq * Np) (kernel_2PV states Nq Np P (potential3 mid pot vg states))
        (averaged_resolvent states Nq Np q C edge (nth j (os_E os) 0 + Eb)%R).
