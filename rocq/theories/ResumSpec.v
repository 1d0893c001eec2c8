(* Specification for C101: when a machine is able to run the program with the iterative solver. *)
From Coq Require Import Reals String.
From Verif Require Import Common NameModel ParamsModel ParamsSpec DriverModel DriverSpec InputModel PWModel PWSpec SwpModel GridSpec PermModel GeoModel PioModel PotentialModel
  SwpWholeModel SwpWholeSpec OnShellModel FaddeevModel FaddeevSpec DetModel DenseModel AgsSpec ChainModel ChainSpec ReproModel ReproSpec ProgramModel ProgramSpec.
Open Scope nat_scope.

(* memory, schedules and library routines of the machine are as C96 requires, for every channel and parameter set of the run *)
Definition supports_iteration (lb : library) (cfg : config R) (vg : vgrid) (ss : statespace) (pot : Z -> potmodel) (mc : machine) : Prop :=
  (forall n, length (mc_grid mc n) = n) /\
  (forall c states, In c (channels_of cfg ss) -> channel_slice ss (Z.of_nat c) = Ok states ->
     (Z.of_nat (length states * cnat cfg F_Nq_WP * cnat cfg F_Np_WP) <= 2 ^ 28)%Z /\ building_ok lb cfg (Z.of_nat c) states (mc_penv mc c) (mc_sched mc c)) /\
  (forall c psi, In (c, psi) (tasks (walk_of cfg) (channels_of cfg ss)) ->
     iterating_ok cfg vg ss (pot psi) (mc_env mc c psi) (mc_getrf mc c psi) (mc_strays mc c psi)).
(* the memory cell in front of the array of elastic approximants holds the same on both machines *)
Definition same_cell_in_front (cfg : config R) (ss : statespace) (mc1 mc2 : machine) : Prop :=
  forall c psi, In (c, psi) (tasks (walk_of cfg) (channels_of cfg ss)) -> fst (mc_strays mc1 c psi) = fst (mc_strays mc2 c psi).
