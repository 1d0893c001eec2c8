(* Property theorems about the driver (C47-C50, C55).  [dbl]/[stod] (doubles and their reader), [solve] (everything one pass of the
   loop body computes, as a function of the channel and of the interaction parameters in force) are arbitrary throughout. *)
From Coq Require Import String Ascii.
From Verif Require Import Common ParamsModel ParamsSpec NameModel NameProofs DriverModel DriverSpec DriverProofs.
Open Scope Z_scope.
Open Scope list_scope.

(* C47: same folder, same name only for the same channel, grid sizes, J_2N_max and set (and thread / file count) *)
Theorem C47_file_names folder :
  (forall Np Nq J P J2 s Np' Nq' J' P' J2' s',
     U_file_name folder (file_identification Np Nq J P J2) s = U_file_name folder (file_identification Np' Nq' J' P' J2') s' ->
     (Np, Nq, J, P, J2, s) = (Np', Nq', J', P', J2', s')) /\
  (forall Np Nq J P J2 s Np' Nq' J' P' J2' s',
     U_BU_file_name folder (file_identification Np Nq J P J2) s = U_BU_file_name folder (file_identification Np' Nq' J' P' J2') s' ->
     (Np, Nq, J, P, J2, s) = (Np', Nq', J', P', J2', s')) /\
  (forall i s i' s', U_file_name folder i s <> U_BU_file_name folder i' s') /\
  (forall J P Np Nq J2 J' P' Np' Nq' J2', P123_file_name folder J P Np Nq J2 = P123_file_name folder J' P' Np' Nq' J2' ->
     (J, P, Np, Nq, J2) = (J', P', Np', Nq', J2')) /\
  (forall J P Np Nq J2 t k J' P' Np' Nq' J2' t' k',
     subarray_file_name folder J P Np Nq J2 t k = subarray_file_name folder J' P' Np' Nq' J2' t' k' ->
     (J, P, Np, Nq, J2, t, k) = (J', P', Np', Nq', J2', t', k')).
Proof.
  exact (conj (U_name_inj folder) (conj (BU_name_inj folder) (conj (U_BU_differ folder) (conj (P123_name_inj folder) (sub_name_inj_full folder))))).
Qed.
Print Assumptions C47_file_names.
Example C47_example : U_file_name "Out" (file_identification 30 32 1 (-1) 3) 0 = "Out/U_PW_elements_Np_30_Nq_32_JP_1_-1_Jmax_3_PSI_0.txt"%string.
Proof. vm_compute. reflexivity. Qed.

(* C48.  A table file and a range inside it: the run is, in order, one solve per channel and set with exactly the numbers of that
   row (as many as the model uses; nothing for the models that take no parameters).  A range that sticks out but passes the
   length check reads outside the table. *)
Theorem C48_partial (dbl : Type) stod (result : Type) solve m start stop content rows n N preset :
  table_file (dbl := dbl) stod content rows n -> (num_read m <= n)%nat -> Z.of_nat (length rows) <= INT_MAX -> INT_MIN <= stop - start ->
  let run := main_run dbl stod result solve m (mkwalk true start stop) (Some content) false 0 N preset in
  (0 <= start <= INT_MAX -> stop <= Z.of_nat (length rows) ->
    run = collect (map (fun t => do r <- solve (fst t) (match num_read m with O => preset | k => firstn k (nth (Z.to_nat (snd t)) rows []) end); Ok (t, r))
                     (tasks (mkwalk true start stop) (seq 0 N)))) /\
  ((1 <= N)%nat -> (forall c p, exists r, solve c p = Ok r) -> start < stop -> stop - start <= Z.of_nat (length rows) ->
   start < 0 \/ Z.of_nat (length rows) < stop -> run = UB) /\
  (stop - start <= INT_MAX -> Z.of_nat (length rows) < stop - start -> run = Err).
Proof.
  intros T0 Hk Hi Hd run. pose proof (table_parsed _ _ _ _ T0) as T. split; [ | split ].
  - intros H0 H1. apply (walk_inside stod solve m start stop content rows n N preset T Hk); lia.
  - intros HN Hs H1 H2 H3. apply (walk_outside stod solve m start stop content rows n N preset T Hk HN Hs); try assumption. lia.
  - intros H1 H2. unfold run, main_run. cbn [w_on w_start w_stop]. rewrite (read_ok stod _ _ _ T). cbn [obind]. unfold walk_check.
    replace ((stop - start <? INT_MIN) || (INT_MAX <? stop - start)) with false by (symmetry; apply orb_false_intro; apply Z.ltb_ge; lia).
    replace (Z.of_nat (length rows) <? stop - start) with true by (symmetry; apply Z.ltb_lt; lia). reflexivity.
Qed.
Print Assumptions C48_partial.
Definition ex_stod (s : string) : option Z := match stoi s with Ok z => Some z | _ => None end.
Definition ex_table : string := ParamsSpec.unlines ["11 12"; "21 22"; "31 32"]%string.
Lemma ex_table_file : table_file ex_stod ex_table [[11; 12]; [21; 22]; [31; 32]] 2.
Proof.
  split; [ discriminate | split; [ lia | ] ]. exists ["11 12"; "21 22"; "31 32"]%string.
  assert (N : forall l, In l ["11 12"; "21 22"; "31 32"]%string -> ~ has_char newline l).
  { intros l Hl. cbn in Hl. repeat destruct Hl as [<-|Hl]; cbn; try contradiction; intros H; repeat destruct H as [H|H]; try discriminate; exact H. }
  split; [ split; [ exact N | left; reflexivity ] | ].
  assert (W : forall a b x y, ex_stod a = Some x -> ex_stod b = Some y -> ~ has_char " "%char a -> ~ has_char " "%char b ->
     exists words, append a (append " " b) = String.concat " " words /\ (forall w, In w words -> ~ has_char " "%char w) /\ map ex_stod words = map Some [x; y] /\ length [x; y] = 2%nat).
  { intros a b x y Ha Hb Na Nb. exists [a; b]. repeat split; [ | cbn [map]; rewrite Ha, Hb; reflexivity ]. intros w [<-|[<-|[]]]; assumption. }
  assert (B : forall c d : ascii, (c <> " "%char /\ d <> " "%char) -> ~ has_char " "%char (String c (String d EmptyString))) by (intros c d Hcd; cbn; intuition congruence).
  repeat constructor; [ apply (W "11" "12")%string | apply (W "21" "22")%string | apply (W "31" "32")%string ];
    try (vm_compute; reflexivity); apply B; split; discriminate.
Qed.
Example C48_example : table_file ex_stod ex_table [[11; 12]; [21; 22]; [31; 32]] 2 /\ (num_read IS_LO <= 2)%nat /\
  main_run Z ex_stod (list Z) (fun _ p => Ok p) IS_LO (mkwalk true 1 3) (Some ex_table) false 0 2 []
  = Ok [(0%nat, 1, [21; 22]); (0%nat, 2, [31; 32]); (1%nat, 1, [21; 22]); (1%nat, 2, [31; 32])].
Proof. split; [ exact ex_table_file | ]. split; [ cbn; lia | vm_compute; reflexivity ]. Qed.

(* Without a walk: one solve per channel with the constants the model was built with, as set 0, whatever the file. *)
Theorem C48_no_walk (dbl : Type) stod (result : Type) solve m w content N preset : w_on w = false ->
  main_run dbl stod result solve m w content false 0 N preset
  = collect (map (fun c => do r <- solve c preset; Ok (c, 0, r)) (seq 0 N)).
Proof. intros H. rewrite (no_walk stod solve m w content N preset H), map_map. reflexivity. Qed.
Print Assumptions C48_no_walk.

(* C48 in full is false: three sets in the file, sets 2 to 4 requested: accepted, and set 3 does not exist. *)
Theorem C48_refuted :
  ~ forall (dbl : Type) stod (result : Type) (solve : nat -> list dbl -> outcome result) m start stop content rows n N preset,
      table_file stod content rows n -> (num_read m <= n)%nat ->
      walk_check start stop (Z.of_nat (length rows)) = Ok tt -> (forall c p, exists r, solve c p = Ok r) ->
      main_run dbl stod result solve m (mkwalk true start stop) (Some content) false 0 N preset <> UB.
Proof.
  intros H. apply (H Z ex_stod (list Z) (fun _ p => Ok p) IS_LO 2 5 ex_table [[11; 12]; [21; 22]; [31; 32]] 2%nat 1%nat []).
  - exact ex_table_file.
  - cbn; lia.
  - vm_compute. reflexivity.
  - intros c p. exists p. reflexivity.
  - vm_compute. reflexivity.
Qed.
Print Assumptions C48_refuted.

(* C49.  The serial run is the runs with channel_idx = 0 .. N-1 put one after the other (the first failure, if any, included);
   the run for channel c produces results for c only, one per parameter set; any other index produces none. *)
Theorem C49_parallel_partition (dbl : Type) stod (result : Type) solve m w content N preset :
  let run par idx := main_run dbl stod result solve m w content par idx N preset in
  (forall idx, (1 <= N)%nat -> run false idx = do ls <- collect (map (fun c => run true (Z.of_nat c)) (seq 0 N)); Ok (concat ls)) /\
  (forall c out, (c < N)%nat -> run true (Z.of_nat c) = Ok out -> map fst out = map (fun psi => (c, psi)) (sets_of w)) /\
  (forall idx c out, ~ (0 <= idx < Z.of_nat N) -> (c < N)%nat -> run true (Z.of_nat c) = Ok out -> run true idx = Ok []).
Proof. rewrite <- sets_eq. exact (parallel_partition stod solve m w content N preset). Qed.
Print Assumptions C49_parallel_partition.
Example C49_example : let run par idx := main_run Z ex_stod (nat * list Z) (fun c p => Ok (c, p)) IS_LO (mkwalk true 0 2) (Some ex_table) par idx 3 [] in
  run true 1 = Ok [(1%nat, 0, (1%nat, [11; 12])); (1%nat, 1, (1%nat, [21; 22]))] /\ run true 7 = Ok [] /\
  exists out, run false 0 = Ok out /\ map fst out = [(0%nat, 0); (0%nat, 1); (1%nat, 0); (1%nat, 1); (2%nat, 0); (2%nat, 1)].
Proof. vm_compute. repeat split. eexists. split; reflexivity. Qed.

(* C50.  Only exceptions and an unknown interaction name reach the shell. *)
Theorem C50_partial (dbl : Type) stod fs omp d1 d100 args :
  (set_run_parameters dbl stod fs omp d1 d100 args = Exc ->
     exists k, exit_status (set_run_parameters dbl stod fs omp d1 d100 args) = Some k /\ k <> 0) /\
  (forall name, ~ In name ["LO_internal"; "IS_LO"; "IS_NLO"; "IS_N2LO"; "IS_N3LO"; "N2LOopt"; "Idaho_N3LO"; "malfliet_tjon"; "nijmegen"]%string ->
     exists k, exit_status_of_model name = Some k /\ k <> 0).
Proof.
  split.
  - intros ->. exists 134. split; [ reflexivity | lia ].
  - intros name H. exists 255. split; [ | lia ]. unfold exit_status_of_model, fetch_potential_ptr.
    repeat match goal with |- context [String.eqb name ?s] =>
      destruct (String.eqb_spec name s) as [->|?]; [ exfalso; apply H; cbn; tauto | ] end. reflexivity.
Qed.
Print Assumptions C50_partial.
Example C50_example : set_run_parameters unit (fun _ => Some tt) (fun _ => None) 64 tt tt ["Np_WP=abc"]%string = Exc /\
  fetch_potential_ptr "malfliet-tjon" = None.
Proof. split; vm_compute; reflexivity. Qed.
Theorem C50_refuted :
  ~ forall args, set_run_parameters unit (fun _ => Some tt) (fun _ => None) 64 tt tt args = Err ->
      exit_status (set_run_parameters unit (fun _ => Some tt) (fun _ => None) 64 tt tt args) <> Some 0.
Proof. intros H. apply (H ["two_J_3N_max=2"]%string); vm_compute; reflexivity. Qed.
Print Assumptions C50_refuted.

(* C55.  The chiral models use the numbers of the set (C48_partial with num_read m > 0).  The other three models do not: their
   results do not depend on what is in the file. *)
Theorem C55_partial (dbl : Type) stod (result : Type) solve m start stop content rows n N preset c psi r :
  m <> LO_internal -> m <> MalflietTjon -> m <> Nijmegen ->
  table_file (dbl := dbl) stod content rows n -> (num_read m <= n)%nat -> Z.of_nat (length rows) <= INT_MAX ->
  0 <= start -> start <= stop -> stop <= Z.of_nat (length rows) ->
  (exists out, main_run dbl stod result solve m (mkwalk true start stop) (Some content) false 0 N preset = Ok out /\ In (c, psi, r) out) ->
  exists row, nth_error rows (Z.to_nat psi) = Some row /\ (1 <= num_read m)%nat /\ solve c (firstn (num_read m) row) = Ok r.
Proof.
  intros M1 M2 M3 T0 Hk Hi H0 Hs H1 (out & Ho & Hin). pose proof (table_parsed _ _ _ _ T0) as T.
  rewrite (walk_inside stod solve m start stop content rows n N preset T Hk H0 H1 Hi) in Ho by (unfold INT_MIN, INT_MAX in *; lia).
  assert (G : forall (l : list (nat * Z)) out, collect (map (fun t => do r <- solve (fst t) (match num_read m with O => preset | k => firstn k (nth (Z.to_nat (snd t)) rows []) end); Ok (t, r)) l) = Ok out ->
     In (c, psi, r) out -> In (c, psi) l /\ solve c (match num_read m with O => preset | k => firstn k (nth (Z.to_nat psi) rows []) end) = Ok r).
  { clear. induction l as [|[c' p'] l IH]; intros out; cbn [map collect]; [ intros [= <-] [] | ]. cbn [fst snd].
    destruct (solve c' _) as [x| | |] eqn:E; cbn [obind]; try discriminate. destruct (collect _) as [ls| | |] eqn:Ec; cbn [obind]; try discriminate.
    intros [= <-] [Hin|Hin]; [ injection Hin as -> -> ->; split; [ left; reflexivity | exact E ] | ]. destruct (IH ls eq_refl Hin). split; [ right; assumption | assumption ]. }
  destruct (G _ _ Ho Hin) as [Ht Hsol]. unfold tasks in Ht. apply in_flat_map in Ht. destruct Ht as (c' & Hc' & Ht). apply in_map_iff in Ht.
  destruct Ht as (p' & [= -> ->] & Hp). rewrite <- sets_eq in Hp. unfold param_sets in Hp. cbn [w_on w_start w_stop] in Hp. apply in_for_range1 in Hp.
  destruct (nth_error rows (Z.to_nat psi)) as [row|] eqn:En; [ | apply nth_error_None in En; lia ].
  exists row. split; [ reflexivity | ]. rewrite (nth_error_nth _ _ [] En) in Hsol.
  destruct m; try congruence; cbn [num_read] in *; (split; [ lia | exact Hsol ]).
Qed.
Print Assumptions C55_partial.
Theorem C55_refuted (dbl : Type) stod (result : Type) solve m start stop content rows content' rows' n N preset :
  In m [LO_internal; MalflietTjon; Nijmegen] ->
  table_file (dbl := dbl) stod content rows n -> table_file stod content' rows' n -> length rows = length rows' ->
  Z.of_nat (length rows) <= INT_MAX -> 0 <= start -> start <= stop -> stop <= Z.of_nat (length rows) ->
  main_run dbl stod result solve m (mkwalk true start stop) (Some content) false 0 N preset
  = main_run dbl stod result solve m (mkwalk true start stop) (Some content') false 0 N preset.
Proof.
  intros M T0 T0' HL Hi H0 Hs H1. pose proof (table_parsed _ _ _ _ T0) as T. pose proof (table_parsed _ _ _ _ T0') as T'. assert (E : num_read m = 0%nat) by (destruct M as [<-|[<-|[<-|[]]]]; reflexivity).
  rewrite (walk_inside stod solve m start stop content rows n N preset T) by (unfold INT_MIN, INT_MAX in *; lia).
  rewrite (walk_inside stod solve m start stop content' rows' n N preset T') by (unfold INT_MIN, INT_MAX in *; lia).
  rewrite E. reflexivity.
Qed.
Print Assumptions C55_refuted.
Example C55_example :
  main_run Z ex_stod (list Z) (fun _ p => Ok p) LO_internal (mkwalk true 1 3) (Some ex_table) false 0 1 [5; 6]
  = Ok [(0%nat, 1, [5; 6]); (0%nat, 2, [5; 6])].
Proof. vm_compute. reflexivity. Qed.

(* Which model a name stands for, and how many numbers of a set it uses. *)
Theorem C55_models :
  (forall name m k, In (name, m, k) model_table -> fetch_potential_ptr name = Some m /\ num_read m = k) /\
  (forall name m, fetch_potential_ptr name = Some m -> exists k, In (name, m, k) model_table).
Proof.
  split.
  - intros name m k H. cbn in H. repeat destruct H as [[= <- <- <-]|H]; try (split; reflexivity). destruct H.
  - intros name m. unfold fetch_potential_ptr.
    repeat match goal with |- context [String.eqb name ?s] =>
      destruct (String.eqb_spec name s) as [->|?]; [ intros [= <-]; eexists; cbn; tauto | ] end. discriminate.
Qed.
Print Assumptions C55_models.

(* C67.  Rows with more numbers than the model uses: the extra columns are ignored (C48_partial).  Rows with fewer: the run goes on with
   numbers of the following rows, and reads outside the table on the last row. *)
Theorem C67_partial (dbl : Type) stod (result : Type) solve m start stop content rows n N preset :
  table_file (dbl := dbl) stod content rows n -> num_read m <> 0%nat -> Z.of_nat (length rows) <= INT_MAX -> 0 <= start -> start <= stop ->
  let run stop := main_run dbl stod result solve m (mkwalk true start stop) (Some content) false 0 N preset in
  (stop <= Z.of_nat (length rows) -> (stop - 1) * Z.of_nat n + Z.of_nat (num_read m) <= Z.of_nat (length rows) * Z.of_nat n ->
    run stop = collect (map (fun t => do r <- solve (fst t) (firstn (num_read m) (concat (skipn (Z.to_nat (snd t)) rows))); Ok (t, r))
                          (tasks (mkwalk true start stop) (seq 0 N)))) /\
  ((n < num_read m)%nat -> (1 <= N)%nat -> (forall c p, exists r, solve c p = Ok r) -> start < Z.of_nat (length rows) ->
    run (Z.of_nat (length rows)) = UB).
Proof.
  intros T0 Hk Hi H0 Hs run. pose proof (table_parsed _ _ _ _ T0) as T. split.
  - intros H1 H2. apply (walk_run_on stod solve m start stop content rows n N preset T Hk); try assumption; unfold INT_MIN, INT_MAX in *; lia.
  - intros H1 HN Hsol H2. apply (walk_short_last stod solve m start content rows n N preset T H1 HN Hsol); lia.
Qed.
Print Assumptions C67_partial.
(* C67 in full is false: 13 numbers are needed, rows have two; accepted. *)
Theorem C67_refuted :
  ~ forall (dbl : Type) stod (result : Type) (solve : nat -> list dbl -> outcome result) m start stop content rows n N preset,
      table_file stod content rows n -> (n < num_read m)%nat -> (1 <= N)%nat -> 0 <= start < stop -> stop <= Z.of_nat (length rows) ->
      main_run dbl stod result solve m (mkwalk true start stop) (Some content) false 0 N preset = Err.
Proof.
  intros H. specialize (H Z ex_stod (list Z) (fun _ p => Ok p) IS_NLO 0 3 ex_table [[11; 12]; [21; 22]; [31; 32]] 2%nat 1%nat [] ex_table_file).
  assert (X : main_run Z ex_stod (list Z) (fun _ p => Ok p) IS_NLO (mkwalk true 0 3) (Some ex_table) false 0 1 [] = UB) by (vm_compute; reflexivity).
  rewrite X in H. discriminate H; cbn; lia.
Qed.
Print Assumptions C67_refuted.
(* and a run that gives numbers: three rows of one number each, model IS_LO takes two, set 0 gets the numbers of rows 0 and 1 *)
Example C67_example :
  main_run Z ex_stod (list Z) (fun _ p => Ok p) IS_LO (mkwalk true 0 2) (Some (ParamsSpec.unlines ["1"; "2"; "3"]%string)) false 0 1 []
  = Ok [(0%nat, 0, [1; 2]); (0%nat, 1, [2; 3])].
Proof. vm_compute. reflexivity. Qed.
