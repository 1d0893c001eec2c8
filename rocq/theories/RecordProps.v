(* C82, C84, C85: the files that document a run. *)
From Coq Require Import String Ascii Reals Psatz.
From Flocq Require Import Core.
From Verif Require Import Common NameModel SwpModel GridModel GridSpec GridProofs GridPropsLemmas OnShellSpec OnShellProofs ParamsModel ParamsSpec ParamsProofs TextModel TextSpec TextNum TextProofs TextLines RecordModel RecordSpec RecordProofs RecordFinal.
Open Scope string_scope.
Open Scope list_scope.
Open Scope nat_scope.

(* C82, numbers: boundaries and mid-points.  Ecm belongs to q (E = 3q^2/4M), Tlab is the laboratory energy at which neutron-deuteron
   scattering has centre-of-mass momentum q, in both tables; the mid-point energy is mass_ratio times the mean of the boundary energies. *)
Theorem C82_partial Nq (q : list R) Eb (junk : nat -> list R) : (- (Mn + Mp) < Eb)%R -> length q = Nq + 1 -> (forall x, In x q -> (0 <= x)%R) -> (forall n, length (junk n) = n) ->
  exists k, swp_kinematics Nq q Eb junk = Ok k /\ k_q k = q /\
    length (k_E k) = Nq + 1 /\ length (k_T k) = Nq + 1 /\ length (k_qmid k) = Nq /\ length (k_Emid k) = Nq /\ length (k_Tmid k) = Nq /\
    (forall i qi, nth_error q i = Some qi -> exists E T, nth_error (k_E k) i = Some E /\ nth_error (k_T k) i = Some T /\
       (E = 3 * qi * qi / (4 * MN) /\ 0 <= T /\ com_momentum_of Mp (Mn + Mp + Eb) T qi)%R) /\
    (forall i ql qu, nth_error q i = Some ql -> nth_error q (i + 1) = Some qu -> exists qm Em Tm,
       nth_error (k_qmid k) i = Some qm /\ nth_error (k_Emid k) i = Some Em /\ nth_error (k_Tmid k) i = Some Tm /\
       (0 <= qm /\ Em = 3 * qm * qm / (4 * MN) /\ 0 <= Tm /\ com_momentum_of Mp (Mn + Mp + Eb) Tm qm /\
        Em = mass_ratio Eb * ((3 * ql * ql / (4 * MN) + 3 * qu * qu / (4 * MN)) / 2))%R).
Proof.
  intros HEb HL HP HJ. destruct (kinematics_ok Nq q Eb junk HEb HL HJ) as (k & E1 & E2 & L1 & L2 & L3 & L4 & L5 & D1 & D2 & D3 & D4 & D5).
  exists k. repeat (split; [ assumption | ]).
  assert (TQ : forall x, (0 <= x)%R -> (0 <= com_momentum_to_lab_energy x Eb)%R /\ com_momentum_of Mp (Mn + Mp + Eb) (com_momentum_to_lab_energy x Eb) x).
  { intros x Hx. destruct (kin_props Eb HEb) as (K1 & _ & K3 & _). destruct (K3 x Hx) as [K4 K5]. split; [ exact K4 | ]. rewrite <- K5 at 2. apply K1, K4. }
  split.
  - intros i qi Hi. assert (i < Nq + 1) by (rewrite <- HL; apply nth_error_Some; congruence). eexists _, _. split; [ apply D1; assumption | ]. split; [ apply D2; assumption | ].
    cbv beta. rewrite (nth_error_nth _ _ _ Hi). split; [ reflexivity | ]. apply TQ, HP, (nth_error_In _ _ Hi).
  - intros i ql qu Hl Hu. assert (i + 1 < Nq + 1) by (rewrite <- HL; apply nth_error_Some; congruence). eexists _, _, _.
    split; [ apply D3; lia | ]. split; [ apply D4; lia | ]. split; [ apply D5; lia | ]. cbv beta. rewrite (nth_error_nth _ _ _ Hl), (nth_error_nth _ _ _ Hu).
    split; [ apply mid_k_nonneg | ]. split; [ symmetry; apply mid_consistent, HEb | ]. destruct (TQ (mid_momentum Eb ql qu) (mid_k_nonneg _ _ _)) as [T1 T2]. split; [ exact T1 | ]. split; [ exact T2 | ].
    apply mid_E_ratio, HEb.
Qed.
Print Assumptions C82_partial.
Example C82_example : exists k, swp_kinematics 1 [0; 100]%R (-2.2)%R (fun n => repeat 0%R n) = Ok k.
Proof.
  destruct (C82_partial 1 [0; 100]%R (-2.2)%R (fun n => repeat 0%R n)) as (k & E & _); [ unfold Mn, Mp; lra | reflexivity | | intros; apply repeat_length | exists k; exact E ].
  intros x [<-|[<-|[]]]; lra.
Qed.
(* The file says: "Ecm in the 2nd table is the mid-point of the corresponding Ecm boundaries".  Near the deuteron's binding energy that
   is wrong in every bin: the mid-point energy is too small. *)
Theorem C82_refuted Nq (q : list R) Eb (junk : nat -> list R) k i ql qu El Eu Em : (-2.5 <= Eb <= 0)%R -> length q = Nq + 1 -> (forall n, length (junk n) = n) ->
  swp_kinematics Nq q Eb junk = Ok k -> nth_error q i = Some ql -> nth_error q (i + 1) = Some qu -> (0 <= ql < qu)%R ->
  nth_error (k_E k) i = Some El -> nth_error (k_E k) (i + 1) = Some Eu -> nth_error (k_Emid k) i = Some Em -> (Em < (El + Eu) / 2)%R.
Proof.
  intros HEb HL HJ HK Hl Hu Hq HEl HEu HEm. assert (HE0 : (- (Mn + Mp) < Eb)%R) by (unfold Mn, Mp; lra).
  destruct (kinematics_ok Nq q Eb junk HE0 HL HJ) as (k' & E1 & E2 & L1 & L2 & L3 & L4 & L5 & D1 & D2 & D3 & D4 & D5). rewrite HK in E1. injection E1 as <-.
  assert (Hi : i + 1 < Nq + 1) by (rewrite <- HL; apply nth_error_Some; congruence). rewrite (D1 i ltac:(lia)) in HEl. rewrite (D1 (i + 1) Hi) in HEu. rewrite (D4 i ltac:(lia)) in HEm.
  injection HEl as <-. injection HEu as <-. injection HEm as <-. rewrite (nth_error_nth _ _ _ Hl), (nth_error_nth _ _ _ Hu).
  rewrite mid_E_ratio by exact HE0. pose proof (ratio_lt1 Eb HEb) as HR.
  assert (HM : (0 < MN)%R) by (unfold MN, Mn, Mp; lra).
  assert (P : (0 < (com_q_momentum_to_com_energy ql + com_q_momentum_to_com_energy qu) / 2)%R).
  { unfold com_q_momentum_to_com_energy. apply Rdiv_lt_0_compat; [ | lra ]. apply Rplus_le_lt_0_compat.
    - apply Rmult_le_pos; [ nra | left; apply Rinv_0_lt_compat; lra ].
    - apply Rdiv_lt_0_compat; nra. }
  nra.
Qed.
Print Assumptions C82_refuted.
(* C82, text: both tables can be read back; every number to nine significant digits. *)
Theorem C82_text Nq q E T qm Em Tm : length q = Nq + 1 -> length E = Nq + 1 -> length T = Nq + 1 -> length qm = Nq -> length Em = Nq -> length Tm = Nq ->
  Forall finite (q ++ E ++ T ++ qm ++ Em ++ Tm) ->
  exists file, kin_file Nq q E T qm Em Tm = Ok file /\ length (table file) = (Nq + 1) + Nq /\
    (forall i a b c, nth_error q i = Some a -> nth_error E i = Some b -> nth_error T i = Some c -> exists row, nth_error (table file) i = Some row /\
       length row = 4 /\ nth_error row 0 = index_field i /\ shows 8 (nth_error row 1) a /\ shows 8 (nth_error row 2) b /\ shows 8 (nth_error row 3) c) /\
    (forall i a b c, nth_error qm i = Some a -> nth_error Em i = Some b -> nth_error Tm i = Some c -> exists row, nth_error (table file) (Nq + 1 + i) = Some row /\
       length row = 4 /\ nth_error row 0 = index_field i /\ shows 8 (nth_error row 1) a /\ shows 8 (nth_error row 2) b /\ shows 8 (nth_error row 3) c).
Proof. exact (kin_readable Nq q E T qm Em Tm). Qed.
Print Assumptions C82_text.
Definition one : double := Fin false 4503599627370496 (-52).
Definition third : double := Fin true 6004799503160661 (-54).
Example C82_text_example : match kin_file 1 [one; third] [one; one] [one; third] [third] [one] [one] with Ok f => table f | _ => [] end =
  [["0"; "+1.00000000e+00"; "+1.00000000e+00"; "+1.00000000e+00"]; ["1"; "-3.33333333e-01"; "+1.00000000e+00"; "-3.33333333e-01"]; ["0"; "-3.33333333e-01"; "+1.00000000e+00"; "+1.00000000e+00"]].
Proof. vm_compute. reflexivity. Qed.

(* C84.  Every setting that has a label is in the file under its label ... *)
Theorem C84_entries c f l : settings c -> label f = Some l -> f <> F_channel_idx \/ c F_parallel_run = VBool double true ->
  exists s, entry (padded l) (lines (run_parameters_file c)) = Some s /\ text_of (c f) s.
Proof. exact (record_entry c f l). Qed.
Print Assumptions C84_entries.
(* ... so two runs with the same file had the same settings, up to what the file leaves out: the output folders, the channel index of a
   run over all channels, and the fourth decimal of the grid parameters. *)
Theorem C84_partial c c' : settings c -> settings c' -> run_parameters_file c = run_parameters_file c' ->
  (forall f, f <> F_output_folder -> f <> F_subfolder -> f <> F_chebyshev_t -> f <> F_chebyshev_s -> f <> F_channel_idx \/ c F_parallel_run = VBool double true -> c f = c' f) /\
  (forall f x x', f = F_chebyshev_t \/ f = F_chebyshev_s -> c f = VDbl double x -> c' f = VDbl double x' -> (Rabs (value x - value x') <= / 1000)%R).
Proof. exact (record_same c c'). Qed.
Print Assumptions C84_partial.
(* the settings a run starts from; the kinds are those the option reader assigns *)
Definition ex_settings (t : double) : config double := upd double (defaults double 4 one (Fin false 7036874417766400 (-46))) F_chebyshev_t (VDbl double t).
Lemma ex_settings_ok t : finite t -> settings (ex_settings t).
Proof.
  intros F f. destruct f; cbn; try exact I; try exact F; try (cbn; lia);
    apply oneline_one; reflexivity.
Qed.
Example C84_kinds f : kind_of f = member_kind f.
Proof. destruct f; reflexivity. Qed.
Example C84_example : entry (padded "chebyshev sparseness") (lines (run_parameters_file (ex_settings one))) = Some "1.000"
  /\ entry (padded "chebyshev scale") (lines (run_parameters_file (ex_settings one))) = Some "100.000"
  /\ entry (padded "Np_WP") (lines (run_parameters_file (ex_settings one))) = Some "50"
  /\ entry (padded "Channel index") (lines (run_parameters_file (ex_settings one))) = None.
Proof. repeat split; vm_compute; reflexivity. Qed.
(* the grid parameter 1.0001 leaves the same file as 1.0, although the grids differ *)
Definition one_0001 : double := Fin false 4504049987333159 (-52).
Theorem C84_refuted : ~ forall c c', settings c -> settings c' -> run_parameters_file c = run_parameters_file c' -> c F_chebyshev_t = c' F_chebyshev_t.
Proof.
  intros H. assert (E : ex_settings one F_chebyshev_t = ex_settings one_0001 F_chebyshev_t); [ | vm_compute in E; discriminate E ].
  apply H; [ apply ex_settings_ok; cbn; lia | apply ex_settings_ok; cbn; lia | vm_compute; reflexivity ].
Qed.
Print Assumptions C84_refuted.

(* C85.  The csv file has one line per boundary, within half of 1e-8 of it, and then an empty line. *)
Theorem C85_partial Nq q : length q = Nq + 1 -> Forall finite q ->
  exists ls, csv_file Nq q = Ok (unlines (ls ++ [""])) /\ lines (unlines (ls ++ [""])) = ls ++ [""] /\ length ls = Nq + 1 /\
    (forall i x, nth_error q i = Some x -> exists s v, nth_error ls i = Some s /\ read_real s = Some v /\ to_decimals 8 (value x) v) /\
    (* without the empty line it would be accepted as a custom grid *)
    forall b, length b = Nq + 1 -> exists r, read_boundaries lines read_real b Nq (unlines ls) = Ok r /\ length r = Nq + 1 /\
      forall i x v, nth_error q i = Some x -> nth_error r i = Some v -> to_decimals 8 (value x) v.
Proof.
  intros HL HF. exists (map (fixed_pos 8) q). split; [ apply (csv_rows Nq q (Zer false) HL) | ]. split; [ apply csv_lines | ]. split; [ rewrite map_length; exact HL | ].
  rewrite Forall_forall in HF.
  set (v := fun x => number (sign_bit x) (fixed_int 8 x) (- Z.of_nat 8)).
  assert (RV : forall x, In x q -> read_real (fixed_pos 8 x) = Some (v x)) by (intros x Hx; apply read_fixed_pos; [ lia | apply HF, Hx ]).
  split.
  - intros i x Hx. exists (fixed_pos 8 x), (v x). split; [ rewrite nth_error_map, Hx; reflexivity | ]. apply nth_error_In in Hx. split; [ apply RV, Hx | apply fixed_int_ok, HF, Hx ].
  - intros b Hb. exists (map v q). destruct (read_spec lines read_real b Nq (unlines (map (fixed_pos 8) q)) Hb) as [RS _].
    split; [ | split; [ rewrite map_length; exact HL | ] ].
    + apply RS. rewrite lines_unlines; [ rewrite !map_length; split; [ exact HL | ] | ].
      * rewrite !map_map. apply map_ext_in. intros x Hx. apply RV, Hx.
      * intros l Hl. apply in_map_iff in Hl. destruct Hl as (x & <- & _). apply clean_oneline, fixed_pos_clean.
    + intros i x w Hx Hw. rewrite nth_error_map, Hx in Hw. injection Hw as <-. apply fixed_int_ok, HF, (nth_error_In _ _ Hx).
Qed.
Print Assumptions C85_partial.
(* Read back as a custom grid the file is never accepted, whatever the grid and however numbers are read, if an empty line is no number. *)
Theorem C85_refuted parse Nq q file b : parse EmptyString = None -> length q = Nq + 1 -> length b = Nq + 1 -> csv_file Nq q = Ok file ->
  read_boundaries lines parse b Nq file = Err.
Proof.
  intros HP HL HB HC. rewrite (csv_rows Nq q (Zer false) HL) in HC. injection HC as <-.
  destruct (read_spec lines parse b Nq (unlines (map (fixed_pos 8) q ++ [""])) HB) as (R1 & R2 & R3). rewrite csv_lines in *.
  destruct (read_boundaries lines parse b Nq (unlines (map (fixed_pos 8) q ++ [""]))) as [r| | |] eqn:E; [ | reflexivity | congruence | ].
  - exfalso. destruct (proj1 (R1 r) eq_refl) as [H _]. rewrite app_length, map_length in H. cbn [length] in H. lia.
  - exfalso. destruct (proj1 R2 eq_refl) as [_ H]. apply (H ""); [ | exact HP ]. rewrite firstn_all2 by (rewrite app_length, map_length; cbn [length]; lia). apply in_app_iff. right. now left.
Qed.
Print Assumptions C85_refuted.
Example C85_example : csv_file 1 [Zer false; third] = Ok (unlines ["+0.00000000"; "-0.33333333"; ""]) /\ read_real EmptyString = None.
Proof. split; vm_compute; reflexivity. Qed.
