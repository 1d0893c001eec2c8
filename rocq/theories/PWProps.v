(* Property theorems about the partial-wave state space (C07-C13).
   All speak about [construct_symmetric_pw_states_g g]: the code as it behaves when the stray read of C11
   returns an arbitrary value [g] (quantified everywhere). *)
From Coq Require Import Sorted.
From Verif Require Import Common PWModel PWSpec PWChnProofs PWPropsLemmas.

(* C07 *)
Theorem C07_selection_rules g J_2N_max two_J_3N_max iso ss :
  construct_symmetric_pw_states_g g J_2N_max two_J_3N_max iso = Ok ss ->
  forall s, In s (ss_states ss) -> physical s /\ in_model_space J_2N_max two_J_3N_max iso s.
Proof. exact (PWPropsLemmas.sound g J_2N_max two_J_3N_max iso ss). Qed.
Print Assumptions C07_selection_rules.
Example C07_example : exists ss, construct_symmetric_pw_states_g 7 1 3 true = Ok ss /\ length (ss_states ss) = 52%nat.
Proof. eexists; split; vm_compute; reflexivity. Qed.

(* C08: a negative J_2N_max is rejected; otherwise construction succeeds and the list is complete. *)
Theorem C08_complete g J_2N_max two_J_3N_max iso :
  0 <= J_2N_max ->
  exists ss, construct_symmetric_pw_states_g g J_2N_max two_J_3N_max iso = Ok ss /\
  forall s, physical s -> in_model_space J_2N_max two_J_3N_max iso s -> In s (ss_states ss).
Proof. exact (PWPropsLemmas.complete g J_2N_max two_J_3N_max iso). Qed.
Print Assumptions C08_complete.
Example C08_example : physical (mkpw 1 1 2 1 1 3 1 1 1) /\ in_model_space 2 1 false (mkpw 1 1 2 1 1 3 1 1 1).
Proof. exact PWPropsLemmas.ex_physical. Qed.

(* C09 *)
Theorem C09_no_duplicates g J_2N_max two_J_3N_max iso ss :
  construct_symmetric_pw_states_g g J_2N_max two_J_3N_max iso = Ok ss -> NoDup (ss_states ss).
Proof. exact (PWPropsLemmas.nodup g J_2N_max two_J_3N_max iso ss). Qed.
Print Assumptions C09_no_duplicates.

(* C10 *)
Theorem C10_channel_table g J_2N_max two_J_3N_max iso ss :
  1 <= two_J_3N_max -> Z.Odd two_J_3N_max ->
  construct_symmetric_pw_states_g g J_2N_max two_J_3N_max iso = Ok ss ->
  ss_N_chn ss = two_J_3N_max + 1 /\
  Z.of_nat (length (ss_chn_idx ss)) = ss_N_chn ss + 1 /\
  StronglySorted Z.lt (ss_chn_idx ss) /\
  hd 1 (ss_chn_idx ss) = 0 /\ last (ss_chn_idx ss) 0 = Z.of_nat (length (ss_states ss)) /\
  (forall c, 0 <= c < ss_N_chn ss ->
     exists l, channel_slice ss c = Ok l /\ l <> [] /\
       (forall s, In s l <-> In s (ss_states ss) /\ chn_of s = nth_chn c)) /\
  (forall c c', 0 <= c < ss_N_chn ss -> 0 <= c' < ss_N_chn ss -> nth_chn c = nth_chn c' -> c = c') /\
  (forall twoJ P, 1 <= twoJ <= two_J_3N_max -> Z.Odd twoJ -> P = 1 \/ P = -1 ->
     exists c, 0 <= c < ss_N_chn ss /\ nth_chn c = (twoJ, P)).
Proof. exact (PWPropsLemmas.chn_table g J_2N_max two_J_3N_max iso ss). Qed.
Print Assumptions C10_channel_table.
Example C10_example : exists ss, construct_symmetric_pw_states_g (-3) 1 3 false = Ok ss /\
   ss_chn_idx ss = [0; 10; 20; 34; 48].
Proof. eexists; split; vm_compute; reflexivity. Qed.

(* C11 is false of the code: for every legal input the scan for the largest channel reads one past the end. *)
Theorem C11_refuted J_2N_max two_J_3N_max iso :
  0 <= J_2N_max -> 1 <= two_J_3N_max ->
  construct_symmetric_pw_states J_2N_max two_J_3N_max iso = UB.
Proof. exact (PWChnProofs.construct_strict_UB J_2N_max two_J_3N_max iso). Qed.
Print Assumptions C11_refuted.
(* What does hold: the value read there never reaches the result. *)
Theorem C11_partial g g' J_2N_max two_J_3N_max iso :
  0 <= J_2N_max ->
  construct_symmetric_pw_states_g g J_2N_max two_J_3N_max iso =
  construct_symmetric_pw_states_g g' J_2N_max two_J_3N_max iso
  /\ exists ss, construct_symmetric_pw_states_g g J_2N_max two_J_3N_max iso = Ok ss.
Proof. exact (PWPropsLemmas.stray_irrelevant g g' J_2N_max two_J_3N_max iso). Qed.
Print Assumptions C11_partial.

(* C12 *)
Theorem C12_deuteron_channels g J_2N_max two_J_3N_max iso ss :
  1 <= two_J_3N_max -> Z.Odd two_J_3N_max ->
  construct_symmetric_pw_states_g g J_2N_max two_J_3N_max iso = Ok ss ->
  exists tbl, find_deuteron_channels ss = Ok tbl /\ Z.of_nat (length tbl) = ss_N_chn ss /\
  forall c, 0 <= c < ss_N_chn ss ->
    exists chn idx, channel_slice ss c = Ok chn /\ nth_error tbl (Z.to_nat c) = Some idx /\
      StronglySorted Z.lt idx /\
      (forall i, In i idx <-> 0 <= i /\ exists s, nth_error chn (Z.to_nat i) = Some s /\ is_deuteron s) /\
      (1 <= J_2N_max -> length idx = if fst (nth_chn c) =? 1 then 2%nat else 3%nat).
Proof. exact (PWPropsLemmas.deuterons g J_2N_max two_J_3N_max iso ss). Qed.
Print Assumptions C12_deuteron_channels.
Example C12_example :
  (do ss <- construct_symmetric_pw_states_g 0 1 3 false; find_deuteron_channels ss)
  = Ok [[4; 5]; [4; 5]; [5; 6; 7]; [5; 6; 7]].
Proof. vm_compute. reflexivity. Qed.

(* C13 with the tensor force on (the default): the pair (coupled?, number) identifies the physical two-nucleon
   channel, the number is inside the table allocated by main, and the numbers looked up for an off-diagonal
   block are those of the diagonal one. *)
Theorem C13_partial iso J_2N_max r c :
  physical r -> physical c -> J_2N r <= J_2N_max ->
  (matrix_of true iso r = matrix_of true iso c <-> same_2N_channel true r c) /\
  (exists i, snd (matrix_of true iso r) = Ok i /\
     0 <= i < if fst (matrix_of true iso r) then num_2N_coup_states true iso J_2N_max
              else num_2N_unco_states true iso J_2N_max) /\
  (interaction_allowed true r c = true ->
     same_2N_channel true r c /\
     (coupled_matrix true iso r c,
      unique_2N_idx true iso (coupled_matrix true iso r c) (L_2N r) (S_2N r) (J_2N r) (T_2N r))
     = matrix_of true iso r).
Proof. exact (PWPropsLemmas.numbering_tensor iso J_2N_max r c). Qed.
Print Assumptions C13_partial.
Example C13_example :
  interaction_allowed true (mkpw 0 1 1 0 0 1 1 1 1) (mkpw 2 1 1 0 0 1 1 1 1) = true /\
  matrix_of true true (mkpw 0 1 1 0 0 1 1 1 1) = (true, Ok 1) /\
  matrix_of true true (mkpw 1 1 0 1 1 1 1 1 1) = (false, Ok 0).
Proof. vm_compute. auto. Qed.

(* Without tensor force and isospin breaking the numbering is still injective, and inside the table up to J_2N_max=1. *)
Theorem C13_notensor_partial J_2N_max r c :
  physical r -> physical c -> J_2N r <= J_2N_max ->
  (matrix_of false false r = matrix_of false false c <-> same_2N_channel false r c) /\
  (J_2N_max <= 1 -> exists i, matrix_of false false r = (false, Ok i) /\
     0 <= i < num_2N_unco_states false false J_2N_max).
Proof. exact (PWPropsLemmas.numbering_notensor J_2N_max r c). Qed.
Print Assumptions C13_notensor_partial.

(* ... and outside the allocated table for every J_2N_max >= 2 (a write past the end in main's potential arrays). *)
Theorem C13_refuted J_2N_max :
  2 <= J_2N_max ->
  exists s i, physical s /\ in_model_space J_2N_max (2 * J_2N_max + 1) false s /\
    matrix_of false false s = (false, Ok i) /\ num_2N_unco_states false false J_2N_max <= i.
Proof. exact (PWPropsLemmas.numbering_overflow J_2N_max). Qed.
Print Assumptions C13_refuted.

(* Without tensor force but with isospin breaking every 1S0 lookup stops the run. *)
Theorem C13_refuted_iso s :
  physical s -> S_2N s = 0 -> J_2N s = 0 -> matrix_of false true s = (true, Err).
Proof. exact (PWPropsLemmas.numbering_iso s). Qed.
Print Assumptions C13_refuted_iso.
