(* Property theorems about on-shell bins and cells (C34, C35, C52, C53, C54). *)
From Coq Require Import Reals Lra Sorted.
From Verif Require Import Common ArrayLib PWModel PWSpec SwpModel ResolventModel ResolventSpec GridModel GridSpec OnShellModel OnShellSpec
  OnShellProofs OnShellPropsLemmas OnShellBreakupProofs2 OnShellWhole OnShellWitness.
Open Scope nat_scope.

(* C34.  mid i: laboratory energy of the mid-point of bin i. *)
Theorem C34_bins_bracket Nq q Eb inputs : 1 <= Nq -> partition_from_zero Nq q -> (- (Mn + Mp) < Eb)%R ->
  exists mid : nat -> R,
   (forall i, i < Nq -> (0 <= mid i)%R /\ com_momentum_of Mp (Mn + Mp + Eb) (mid i) (mid_momentum Eb (lower q i) (upper q i))) /\
   (forall i j, i < j -> j < Nq -> (mid i < mid j)%R) /\
   (elastic_bins Nq q Eb inputs = Err \/ exists os, elastic_bins Nq q Eb inputs = Ok os) /\
   forall os, elastic_bins Nq q Eb inputs = Ok os ->
     StronglySorted lt (os_bins os) /\
     (forall i, In i (os_bins os) <->
        exists T j, In T inputs /\ j + 1 < Nq /\ (mid j <= T <= mid (j + 1)%nat)%R /\ (i = j \/ i = j + 1)) /\
     (forall T, In T inputs -> 2 <= Nq -> (mid 0%nat <= T <= mid (Nq - 1)%nat)%R ->
        exists j, j + 1 < Nq /\ (mid j <= T <= mid (j + 1)%nat)%R /\ In j (os_bins os) /\ In (j + 1) (os_bins os)) /\
     os_T os = map mid (os_bins os) /\
     os_q os = map (fun i => mid_momentum Eb (lower q i) (upper q i)) (os_bins os) /\
     os_E os = map (fun k => 3 * k * k / (4 * MN))%R (os_q os).
Proof. exact (bins_bracket Nq q Eb inputs). Qed.
Print Assumptions C34_bins_bracket.
Example C34_example : partition_from_zero 2 bu_q /\
  exists os, elastic_bins 2 bu_q (-2.2) [bu_T] = Ok os /\ os_bins os = [0; 1].
Proof. split; [ exact bu_part | ]. destruct bu_elastic as (os & H & B & _). exists os. split; assumption. Qed.

(* C52.  The bin recorded for an on-shell momentum always contains it; it is the selected bin itself when every bin is wide
   enough for the mass ratio used (which is about 0.9996 for the deuteron). *)
Theorem C52_partial Nq q Eb inputs : 1 <= Nq -> partition_from_zero Nq q -> (- (Mn + Mp) < Eb)%R ->
  (forall os, elastic_bins Nq q Eb inputs = Ok os ->
     Forall2 (fun i j => j < Nq /\ (lower q j < mid_momentum Eb (lower q i) (upper q i) < upper q j)%R) (os_bins os) (os_idx os)) /\
  ((forall i, i < Nq -> (lower q i * lower q i < mass_ratio Eb * ((lower q i * lower q i + upper q i * upper q i) / 2) < upper q i * upper q i)%R) ->
     exists os, elastic_bins Nq q Eb inputs = Ok os /\ os_idx os = os_bins os) /\
  (forall os i, elastic_bins Nq q Eb inputs = Ok os -> In i (os_bins os) ->
     (mass_ratio Eb * ((lower q i * lower q i + upper q i * upper q i) / 2) <= lower q i * lower q i)%R -> os_idx os <> os_bins os).
Proof. exact (bin_home Nq q Eb inputs). Qed.
Print Assumptions C52_partial.
Example C52_example : forall i, i < 2 ->
  (lower bu_q i * lower bu_q i < mass_ratio (-2.2) * ((lower bu_q i * lower bu_q i + upper bu_q i * upper bu_q i) / 2) < upper bu_q i * upper bu_q i)%R.
Proof. pose proof ex_ratio. intros [|[|i]] H0; [ | | lia ]; unfold lower, upper, bu_q; cbn [nth plus]; lra. Qed.
(* C52 in full is false: bins of width 0.001 MeV at 1000 MeV. *)
Theorem C52_refuted : ~ forall Nq q Eb inputs os, 1 <= Nq -> partition_from_zero Nq q -> (- (Mn + Mp) < Eb)%R ->
  elastic_bins Nq q Eb inputs = Ok os -> os_idx os = os_bins os.
Proof.
  intros H. destruct ex_elastic as (os & E & _ & Hn). apply Hn. apply (H 3 ex_q (-2.2)%R [mid_T_lab (-2.2) 1000 1000.001]); [ lia | exact ex_q_partition | exact HEb | exact E ].
Qed.
Print Assumptions C52_refuted.

(* C54.  Breakup: per on-shell energy, exactly the 2x2 squares around the cells that can have energy E_com; the index array
   delimits them; the run stops exactly when an energy above threshold has no such cell. *)
Theorem C54_breakup_cells iso J_2N_max Np Nq e_unco e_coup q states Eb Es :
  (forall s, In s states -> physical s /\ (J_2N s <= J_2N_max)%Z) ->
  Z.of_nat (length e_unco) = (num_2N_unco_states true iso J_2N_max * Z.of_nat (Np + 1))%Z ->
  Z.of_nat (length e_coup) = (num_2N_coup_states true iso J_2N_max * Z.of_nat (2 * (Np + 1)))%Z ->
  partition_from_zero Nq q ->
  exists bound, pair_boundaries iso Np e_unco e_coup states bound /\
  ((forall a k, a < length states -> k < Np -> (bound a k < bound a (k + 1)%nat)%R) ->
  let cell := on_shell_cell bound q (length states) Nq Np in
  let run := breakup_cells true iso Np Nq e_unco e_coup q states Eb Es in
  (run = Err <-> exists E, In E Es /\ (0 <= E + Eb)%R /\ forall a iq ip, ~ cell E a iq ip) /\
  ((exists E, In E Es /\ (0 <= E + Eb)%R /\ forall a iq ip, ~ cell E a iq ip) \/ exists cells ends, run = Ok (cells, ends)) /\
  forall cells ends, run = Ok (cells, ends) ->
    length ends = length Es + 1 /\ nth 0 ends 0 = 0 /\ nth (length Es) ends 0 = length cells /\
    forall k E, nth_error Es k = Some E ->
      nth k ends 0 <= nth (k + 1) ends 0 <= length cells /\
      let mine := firstn (nth (k + 1) ends 0 - nth k ends 0) (skipn (nth k ends 0) cells) in
      ((E + Eb < 0)%R -> mine = []) /\
      ((0 <= E + Eb)%R -> forall t, In t mine <-> exists a iq ip, cell E a iq ip /\ stored_for_cell bound q E a iq ip t)).
Proof.
  intros H1 H2 H3 H4. exists (bnd iso Np e_unco e_coup states). split; [ exact (bnd_place iso J_2N_max Np e_unco e_coup states H1 H2 H3) | ].
  intros H5. exact (breakup_main iso J_2N_max Np Nq e_unco e_coup q states Eb H1 H2 H3 H4 H5 Es).
Qed.
Print Assumptions C54_breakup_cells.

(* C54 for the whole routine, starting from the requested energies: cells are stored exactly when breakup is asked for,
   one group per selected on-shell bin, chosen at that bin's energy; no out-of-bounds access; without bins it throws. *)
Theorem C54_whole_run iso J_2N_max Np Nq e_unco e_coup q states Eb inputs :
  (forall s, In s states -> physical s /\ (J_2N s <= J_2N_max)%Z) ->
  Z.of_nat (length e_unco) = (num_2N_unco_states true iso J_2N_max * Z.of_nat (Np + 1))%Z ->
  Z.of_nat (length e_coup) = (num_2N_coup_states true iso J_2N_max * Z.of_nat (2 * (Np + 1)))%Z ->
  partition_from_zero Nq q -> (- (Mn + Mp) < Eb)%R ->
  exists bound, pair_boundaries iso Np e_unco e_coup states bound /\
  ((forall a k, a < length states -> k < Np -> (bound a k < bound a (k + 1)%nat)%R) ->
  forall breakup,
  let cell := on_shell_cell bound q (length states) Nq Np in
  let run := find_on_shell_bins true iso breakup Np Nq e_unco e_coup q states Eb inputs in
  (Nq = 0 -> run = Exc) /\ (1 <= Nq -> run = Err \/ exists r, run = Ok r) /\
  forall os r, run = Ok (os, r) ->
    elastic_bins Nq q Eb inputs = Ok os /\
    (breakup = false -> r = None) /\
    (breakup = true -> exists cells ends, r = Some (cells, ends) /\
       length ends = length (os_bins os) + 1 /\ nth 0 ends 0 = 0 /\ nth (length (os_bins os)) ends 0 = length cells /\
       forall k i, nth_error (os_bins os) k = Some i ->
         let E := (3 * mid_momentum Eb (lower q i) (upper q i) * mid_momentum Eb (lower q i) (upper q i) / (4 * MN))%R in
         nth k ends 0 <= nth (k + 1) ends 0 <= length cells /\
         let mine := firstn (nth (k + 1) ends 0 - nth k ends 0) (skipn (nth k ends 0) cells) in
         ((E + Eb < 0)%R -> mine = []) /\
         ((0 <= E + Eb)%R -> mine <> [] /\
            forall t, In t mine <-> exists a iq ip, cell E a iq ip /\ stored_for_cell bound q E a iq ip t))).
Proof. exact (whole_run iso J_2N_max Np Nq e_unco e_coup q states Eb inputs). Qed.
Print Assumptions C54_whole_run.
Example C54_example : exists os cells ends,
  find_on_shell_bins true false true 4 2 bu_unco bu_coup bu_q bu_states (-2.2) [bu_T] = Ok (os, Some (cells, ends)) /\ os_bins os = [0; 1] /\ cells <> [].
Proof.
  destruct bu_run as (os & cells & ends & H & _ & _ & Hin & _). exists os, cells, ends. split; [ exact H | ].
  destruct bu_elastic as (os' & H' & B & _). unfold find_on_shell_bins in H. rewrite H' in H. cbn [obind] in H.
  split; [ destruct (breakup_cells _ _ _ _ _ _ _ _ _ _); cbn [obind] in H; congruence | ].
  intros ->. rewrite firstn_nil in Hin. exact Hin.
Qed.

(* C35, the part that holds: the state index is always valid, bin indices are at most one step outside the grid, and
   outside only as neighbours of an on-shell cell on the rim of the grid. *)
Theorem C35_partial iso J_2N_max Np Nq e_unco e_coup q states Eb Es :
  (forall s, In s states -> physical s /\ (J_2N s <= J_2N_max)%Z) ->
  Z.of_nat (length e_unco) = (num_2N_unco_states true iso J_2N_max * Z.of_nat (Np + 1))%Z ->
  Z.of_nat (length e_coup) = (num_2N_coup_states true iso J_2N_max * Z.of_nat (2 * (Np + 1)))%Z ->
  partition_from_zero Nq q ->
  exists bound, pair_boundaries iso Np e_unco e_coup states bound /\
  ((forall a k, a < length states -> k < Np -> (bound a k < bound a (k + 1)%nat)%R) ->
   forall cells ends, breakup_cells true iso Np Nq e_unco e_coup q states Eb Es = Ok (cells, ends) ->
   forall t, In t cells -> (0 <= fst (fst t) < Z.of_nat (length states))%Z /\
     (-1 <= snd (fst t) <= Z.of_nat Nq)%Z /\ (-1 <= snd t <= Z.of_nat Np)%Z /\
     (in_grid Np Nq (snd (fst t), snd t) \/
      exists E a iq ip, In E Es /\ on_shell_cell bound q (length states) Nq Np E a iq ip /\ stored_for_cell bound q E a iq ip t /\
        (iq = 0 \/ iq + 1 = Nq \/ ip = 0 \/ ip + 1 = Np))).
Proof.
  intros H1 H2 H3 H4. exists (bnd iso Np e_unco e_coup states). split; [ exact (bnd_place iso J_2N_max Np e_unco e_coup states H1 H2 H3) | ].
  intros H5. exact (breakup_rim iso J_2N_max Np Nq e_unco e_coup q states Eb H1 H2 H3 H4 H5 Es).
Qed.
Print Assumptions C35_partial.
(* C35 in full is false: the p=0 cell of the 1S0 state gets neighbour p=-1. *)
Theorem C35_refuted : exists os cells ends,
  find_on_shell_bins true false true 4 2 bu_unco bu_coup bu_q bu_states (-2.2) [bu_T] = Ok (os, Some (cells, ends)) /\
  exists t, In t cells /\ ~ in_grid 4 2 (snd (fst t), snd t).
Proof.
  destruct bu_run as (os & cells & ends & H & _ & _ & _ & Hn). exists os, cells, ends. split; [ exact H | ].
  exists (1, 0, -1)%Z. split; [ | unfold in_grid; cbn; lia ].
  rewrite <- (firstn_skipn (nth 1 ends 0) cells). apply in_or_app. left. exact Hn.
Qed.
Print Assumptions C35_refuted.
Example C35_example : (forall s, In s bu_states -> physical s /\ (J_2N s <= 1)%Z) /\
  Z.of_nat (length bu_unco) = (num_2N_unco_states true false 1 * Z.of_nat (4 + 1))%Z /\
  Z.of_nat (length bu_coup) = (num_2N_coup_states true false 1 * Z.of_nat (2 * (4 + 1)))%Z /\ partition_from_zero 2 bu_q /\
  forall a k, a < length bu_states -> k < 4 -> (bnd false 4 bu_unco bu_coup bu_states a k < bnd false 4 bu_unco bu_coup bu_states a (k + 1))%R.
Proof. exact (conj bu_phys (conj bu_Lu (conj bu_Lc (conj bu_part bu_asc)))). Qed.

(* C53 is false: the cells are chosen at E_com, the resolvent is evaluated at E_com + E_bound (main.cpp l.381-392).
   Here a stored cell has no cell at the latter energy within one step. *)
Definition near (x : nat) (z : Z) : Prop := (z - 1 <= Z.of_nat x <= z + 1)%Z.
Theorem C53_refuted : exists os cells ends E t bound,
  find_on_shell_bins true false true 4 2 bu_unco bu_coup bu_q bu_states (-2.2) [bu_T] = Ok (os, Some (cells, ends)) /\
  nth_error (os_E os) 0 = Some E /\ (0 <= E + -2.2)%R /\ In t (firstn (nth 1 ends 0) cells) /\
  pair_boundaries false 4 bu_unco bu_coup bu_states bound /\
  forall a iq ip, fst (fst t) = Z.of_nat a -> near iq (snd (fst t)) -> near ip (snd t) ->
    ~ on_shell_cell bound bu_q (length bu_states) 2 4 (E + -2.2)%R a iq ip.
Proof.
  destruct bu_run as (os & cells & ends & H & HE & H0 & Hin & _). exists os, cells, ends, bu_E0, (1, 0, 3)%Z, (bnd false 4 bu_unco bu_coup bu_states).
  pose proof bu_E0_range as R0. pose proof bu_k100 as K1. pose proof bu_k0 as K0.
  split; [ exact H | ]. split; [ rewrite HE; reflexivity | ]. split; [ lra | ]. split; [ exact Hin | ].
  split; [ exact (bnd_place false 1 4 bu_unco bu_coup bu_states bu_phys bu_Lu bu_Lc) | ].
  intros a iq ip Ha Hq Hp ((La & Lq & Lp) & (Hh & _)). cbn [fst snd] in *. unfold near in *. assert (a = 1) as -> by lia.
  assert (Hk : (0 <= q_energy (lower bu_q iq))%R) by (destruct iq as [|[|iq]]; [ | | lia ]; unfold lower, bu_q; cbn [nth]; lra).
  rewrite !bu_bnd1 in Hh. destruct ip as [|[|[|[|ip]]]]; try lia; cbn [nth plus bu_unco bu_e app] in Hh; lra.
Qed.
Print Assumptions C53_refuted.
(* what holds instead: every stored cell is within one step of a cell that can have energy E_com *)
Theorem C53_partial iso J_2N_max Np Nq e_unco e_coup q states Eb Es :
  (forall s, In s states -> physical s /\ (J_2N s <= J_2N_max)%Z) ->
  Z.of_nat (length e_unco) = (num_2N_unco_states true iso J_2N_max * Z.of_nat (Np + 1))%Z ->
  Z.of_nat (length e_coup) = (num_2N_coup_states true iso J_2N_max * Z.of_nat (2 * (Np + 1)))%Z ->
  partition_from_zero Nq q ->
  exists bound, pair_boundaries iso Np e_unco e_coup states bound /\
  ((forall a k, a < length states -> k < Np -> (bound a k < bound a (k + 1)%nat)%R) ->
   forall cells ends, breakup_cells true iso Np Nq e_unco e_coup q states Eb Es = Ok (cells, ends) ->
   forall k E t, nth_error Es k = Some E -> In t (firstn (nth (k + 1) ends 0 - nth k ends 0) (skipn (nth k ends 0) cells)) ->
   exists a iq ip, fst (fst t) = Z.of_nat a /\ near iq (snd (fst t)) /\ near ip (snd t) /\
     on_shell_cell bound q (length states) Nq Np E a iq ip).
Proof.
  intros H1 H2 H3 H4. destruct (C54_breakup_cells iso J_2N_max Np Nq e_unco e_coup q states Eb Es H1 H2 H3 H4) as (bound & Hb & Hall).
  exists bound. split; [ exact Hb | ]. intros H5 cells ends Hr k E t Hk Ht. destruct (Hall H5) as (_ & _ & H). destruct (H cells ends Hr) as (_ & _ & _ & Hs).
  destruct (Hs k E Hk) as (_ & Hm). cbn zeta in Hm. destruct (Rlt_le_dec (E + Eb) 0) as [Hneg|Hpos].
  - rewrite (proj1 Hm Hneg) in Ht. destruct Ht.
  - apply (proj2 Hm Hpos) in Ht. destruct Ht as (a & iq & ip & Hc & Hst). exists a, iq, ip. unfold near.
    unfold stored_for_cell, stored_for, p_side, q_side in Hst. cbn zeta in Hst.
    repeat match type of Hst with context [Rle_dec ?x ?y] => destruct (Rle_dec x y) end;
      destruct Hst as [->|[-> |[-> | ->]]]; cbn [fst snd]; repeat split; try lia; apply Hc.
Qed.
Print Assumptions C53_partial.
