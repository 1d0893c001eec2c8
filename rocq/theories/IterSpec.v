(* Specification of the result of one three-nucleon channel with the iterative solver, the program's default (C93). *)
From Coq Require Import Reals Sorted.
From Verif Require Import Common GridSpec PWModel PWSpec PermSpec PotentialModel PotentialSpec KernelSpec ResolventModel FaddeevModel FaddeevSpec DetModel
  SwpModel SwpWholeModel SwpWholeSpec SpectralSpec AgsSpec OnShellModel OnShellSpec PadeSpec ChainModel ChainSpec.
Open Scope nat_scope.

(* u is an approximant of the series a_0 + a_1 + ... that the acceptance rule accepts (C45, C61) *)
Definition resummed (a : nat -> cdouble) (u : cdouble) : Prop := exists b NM, u = approximant a b c1 /\ accepted a b NM.

(* As amplitudes_of (ChainSpec.v), but the reported number for the states x <- y at energy j is an accepted approximant of the
   Born series  <x| K + K Res K + K Res K Res K + ... |y>  of the equation T = K + K Res T.
   With breakup: [cells] and [ends] are the list of cells (breakup_list, ChainSpec.v), and UBU holds, for deuteron wave dr and
   each cell (a, iq, ip) of the grid stored for energy j, such a number for the final state "pair in packet ip of partial wave
   a, spectator in bin iq". *)
Definition iterated_with (states : list pw) (Nq Np : nat) (p q : list R) (V3 : state3 -> state3 -> R) (P : nat -> nat -> R)
    (Eb : R) (Es : list R) (bins ds : list nat) (U : list cdouble) (breakup : option (list (Z * Z * Z) * list nat * list cdouble))
    (C : state3 -> state3 -> R) (lam : state3 -> R) (edge : nat -> nat -> R) : Prop :=
  let N := length states in let D := N * Nq * Np in let nd := length ds in let ne := length Es in
    wave_packets states Nq Np p V3 Eb C lam edge /\
    let Cx i j := C (state_of Nq Np i) (state_of Nq Np j) in
    let K := kernel_2PV states Nq Np P V3 in
    let Res j := averaged_resolvent states Nq Np q C edge (nth j Es 0 + Eb)%R in
    let series j x y n := between D Cx (born_term D K (Res j) n) x y in
    let on_shell d j := idx3 Nq Np (nth d ds 0, nth j bins 0, 0) in
    (forall dr dc j, dr < nd -> dc < nd -> j < ne ->
       resummed (series j (on_shell dr j) (on_shell dc j)) (nth (dr * nd * ne + dc * ne + j) U c0)) /\
    match breakup with
    | None => True
    | Some (cells, ends, UBU) =>
        breakup_list edge q N Nq Np Eb Es cells ends /\
        forall dr j b a iq ip, dr < nd -> j < ne -> nth j ends 0 <= b < nth (j + 1) ends 0 ->
          nth_error cells b = Some (Z.of_nat a, Z.of_nat iq, Z.of_nat ip) -> valid3 N Nq Np (a, iq, ip) ->
          resummed (series j (on_shell dr j) (idx3 Nq Np (a, iq, ip))) (nth (dr * length cells + b) UBU c0)
    end.
Definition iterated_amplitudes (states : list pw) (Nq Np : nat) (p q : list R) (V3 : state3 -> state3 -> R) (P : nat -> nat -> R)
    (Eb : R) (Es : list R) (bins ds : list nat) (U : list cdouble) (breakup : option (list (Z * Z * Z) * list nat * list cdouble)) : Prop :=
  exists C lam edge, iterated_with states Nq Np p q V3 P Eb Es bins ds U breakup C lam edge.

Section Channel.
Variables (diag : nat -> list R -> list R * list R) (mem : nat -> nat -> list R) (J_2N_max : Z) (iso mid : bool) (ss : statespace) (states : list pw)
  (Nq : nat) (q : list R) (pot : potmodel) (junk : R * R) (vg : vgrid) (inputs : list R) (bu : bool).
Notation Np := (vg_Np vg).
Notation p := (vg_pWP vg).
Notation N := (length states).
(* why a run may stop with an error: a pair channel without the right number of bound states; an on-shell momentum without a
   bin; with breakup, an energy above threshold that no cell can have *)
Definition stops_because : Prop :=
  (exists V cm i, fresh_potential mem iso mid J_2N_max pot junk vg (ss_states ss) = Ok V /\ is_channel iso (ss_states ss) cm i /\
     ~ bound_states_ok (is_deuteron_channel iso (ss_states ss) cm i) (fst (spectrum diag Np p V cm i))) \/
  (exists V Eb, fresh_potential mem iso mid J_2N_max pot junk vg (ss_states ss) = Ok V /\
     bound_energy iso (ss_states ss) (fun cm i => fst (spectrum diag Np p V cm i)) Eb /\
     (elastic_bins Nq q Eb inputs = Err \/
      bu = true /\ exists os C lam edge E, elastic_bins Nq q Eb inputs = Ok os /\
        wave_packets states Nq Np p (potential3 mid pot vg states) Eb C lam edge /\
        In E (os_E os) /\ (0 <= E + Eb)%R /\ forall a iq ip, ~ on_shell_cell edge q N Nq Np E a iq ip)).
(* with breakup: a cell is stored that is not in the grid (C35) *)
Definition cell_off_grid : Prop :=
  exists V Eb os C lam edge E a iq ip t, fresh_potential mem iso mid J_2N_max pot junk vg (ss_states ss) = Ok V /\
    bound_energy iso (ss_states ss) (fun cm i => fst (spectrum diag Np p V cm i)) Eb /\ elastic_bins Nq q Eb inputs = Ok os /\
    wave_packets states Nq Np p (potential3 mid pot vg states) Eb C lam edge /\ In E (os_E os) /\ (0 <= E + Eb)%R /\
    on_shell_cell edge q N Nq Np E a iq ip /\ stored_for_cell edge q E a iq ip t /\ ~ in_grid Np Nq (snd (fst t), snd t).
(* what the result holds; P is the permutation operator *)
Definition channel_report (P : nat -> nat -> R) (r : chan_result) : Prop :=
  cr_states r = states /\
  let Eb := sw_Eb (cr_swp r) in let os := cr_os r in let ds := cr_ds r in let ne := length (os_T os) in
  fresh_potential mem iso mid J_2N_max pot junk vg (ss_states ss) = Ok (cr_V r) /\
  (forall cm i, is_channel iso (ss_states ss) cm i ->
     bound_states_ok (is_deuteron_channel iso (ss_states ss) cm i) (fst (spectrum diag Np p (cr_V r) cm i))) /\
  bound_energy iso (ss_states ss) (fun cm i => fst (spectrum diag Np p (cr_V r) cm i)) Eb /\
  elastic_bins Nq q Eb inputs = Ok os /\
  length (os_q os) = ne /\ length (os_E os) = ne /\ length (os_idx os) = ne /\ length (cr_U r) = ne * length ds * length ds /\
  length (cr_UBU r) = (if bu then ne * length (fst (cr_bu r)) else 0) /\
  (forall j, j < ne -> let k := nth j (os_q os) 0%R in let b := nth j (os_idx os) 0 in
     b < Nq /\ (GridSpec.lower q b < k < GridSpec.upper q b)%R /\ com_momentum_of Mp (Mn + Mp + Eb) (nth j (os_T os) 0%R) k /\
     nth j (os_E os) 0%R = (3 * k * k / (4 * MN))%R) /\
  StronglySorted lt ds /\ (forall i, In i ds <-> i < N /\ is_deuteron (nth i states dummy_pw)) /\
  iterated_amplitudes states Nq Np p q (potential3 mid pot vg states) P Eb (os_E os) (os_idx os) ds (cr_U r)
    (if bu then Some (fst (cr_bu r), snd (cr_bu r), cr_UBU r) else None).
End Channel.

(* with breakup: the loop over the orders counted nd*nd*ne accepted elements, and ended, while an element (elastic or breakup)
   had no accepted approximant *)
Definition stopped_early (det : list cdouble -> nat -> cdouble) (memory : strays) (r : chan_result) : Prop := exists nc nch v,
  chunking (zn (s_D (cr_sys r))) = Ok (nc, nch) /\ pade_run det memory (cr_sys r) (Z.to_nat nc) (Z.to_nat nch) = Ok v /\
  v_count v = length (cr_ds r) * length (cr_ds r) * length (os_T (cr_os r)) /\
  ((exists e, elastic (cr_sys r) e /\ nth (e_idx e) (p_conv (v_el v)) false = false) \/
   (exists e, breakup (cr_sys r) e /\ nth (e_idx e) (p_conv (v_bu v)) false = false)).
