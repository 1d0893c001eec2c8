From Coq Require Import ZifyBool Sorted.
From Verif Require Import Common PWModel PWSpec PWProofs PWChnProofs.
Ltac Zify.zify_post_hook ::= Z.div_mod_to_equations.

Lemma matrix_of_id tensor iso s : matrix_of tensor iso s = mat_id tensor iso s.
Proof. reflexivity. Qed.

Lemma sound g Jm mx iso ss :
  construct_symmetric_pw_states_g g Jm mx iso = Ok ss ->
  forall s, In s (ss_states ss) -> physical s /\ in_model_space Jm mx iso s.
Proof. intros H s Hs. apply construct_g_inv in H. destruct H as [_ ->]. apply in_tables in Hs. exact Hs. Qed.

Lemma complete g Jm mx iso : 0 <= Jm ->
  exists ss, construct_symmetric_pw_states_g g Jm mx iso = Ok ss /\
  forall s, physical s -> in_model_space Jm mx iso s -> In s (ss_states ss).
Proof.
  intros HJ. rewrite construct_g_eq by exact HJ. eexists; split; [ reflexivity | ].
  intros s H1 H2. apply in_tables. split; assumption.
Qed.

Lemma ex_physical : physical (mkpw 1 1 2 1 1 3 1 1 1) /\ in_model_space 2 1 false (mkpw 1 1 2 1 1 3 1 1 1).
Proof.
  split; constructor; pws; unfold couples; try lia; try reflexivity;
  try (split; [ lia | split; [ lia | split; [ lia | apply Z.even_spec; reflexivity ] ] ]).
  apply Z.odd_spec; reflexivity.
Qed.

Lemma nodup g Jm mx iso ss :
  construct_symmetric_pw_states_g g Jm mx iso = Ok ss -> NoDup (ss_states ss).
Proof. intros H. apply construct_g_inv in H. destruct H as [_ ->]. apply NoDup_tables. Qed.

Lemma StronglySorted_map_seq (f : nat -> Z) n a :
  (forall i j, (a <= i < j)%nat -> (j < a + n)%nat -> f i < f j) -> StronglySorted Z.lt (map f (seq a n)).
Proof.
  revert a; induction n as [|n IH]; intros a H; [ constructor | ]. cbn. constructor.
  - apply IH. intros i j H1 H2. apply H; lia.
  - apply Forall_forall. intros x Hx. apply in_map_iff in Hx. destruct Hx as (k & <- & Hk).
    apply in_seq in Hk. apply H; lia.
Qed.

Lemma chn_table g Jm mx iso ss :
  1 <= mx -> Z.Odd mx ->
  construct_symmetric_pw_states_g g Jm mx iso = Ok ss ->
  ss_N_chn ss = mx + 1 /\
  Z.of_nat (length (ss_chn_idx ss)) = ss_N_chn ss + 1 /\
  StronglySorted Z.lt (ss_chn_idx ss) /\
  hd 1 (ss_chn_idx ss) = 0 /\ last (ss_chn_idx ss) 0 = Z.of_nat (length (ss_states ss)) /\
  (forall c, 0 <= c < ss_N_chn ss ->
     exists l, channel_slice ss c = Ok l /\ l <> [] /\
       (forall s, In s l <-> In s (ss_states ss) /\ chn_of s = nth_chn c)) /\
  (forall c c', 0 <= c < ss_N_chn ss -> 0 <= c' < ss_N_chn ss -> nth_chn c = nth_chn c' -> c = c') /\
  (forall twoJ P, 1 <= twoJ <= mx -> Z.Odd twoJ -> P = 1 \/ P = -1 ->
     exists c, 0 <= c < ss_N_chn ss /\ nth_chn c = (twoJ, P)).
Proof.
  intros Hmx Ho H. apply construct_g_inv in H. destruct H as [HJ ->].
  assert (HN : ss_N_chn (tables Jm mx iso) = mx + 1) by (apply length_keys_odd; assumption).
  rewrite HN. split; [ reflexivity | ].
  assert (Hlen : Z.of_nat (length (chn_keys mx)) = mx + 1) by (apply length_keys_odd; assumption).
  split; [ cbn [tables ss_chn_idx]; rewrite map_length, seq_length; lia | ].
  split.
  { cbn [tables ss_chn_idx]. apply StronglySorted_map_seq. intros i j Hi Hj. apply Nat2Z.inj_lt.
    apply off_mono; [ | rewrite length_bsof; lia ].
    intros b Hb. unfold bsof, blocks in Hb. apply in_map_iff in Hb. destruct Hb as (k & <- & Hk).
    apply (keys_nonempty Jm iso mx k HJ Hk). }
  split; [ reflexivity | ].
  split.
  { cbn [tables ss_chn_idx ss_states]. rewrite seq_S, map_app. cbn [map plus].
    rewrite last_last. rewrite <- (length_bsof Jm mx iso), off_all. reflexivity. }
  split.
  { intros c Hc. destruct (slice_spec Jm mx iso c HJ Hmx Ho Hc) as (l & H1 & _ & H2 & H3).
    exists l. split; [ exact H1 | split; assumption ]. }
  split.
  { intros c c' Hc Hc' He. unfold nth_chn in He.
    pose proof (f_equal fst He) as H1. pose proof (f_equal snd He) as H2. cbn [fst snd] in H1, H2.
    assert (Z.even c = Z.even c') by (destruct (Z.even c), (Z.even c'); try reflexivity; discriminate H2).
    assert (c mod 2 = c' mod 2) by (rewrite !Zmod_even, H; reflexivity). lia. }
  { intros tJ P HtJ [q Hq] HP. exists (2 * q + (if P =? 1 then 0 else 1)). split.
    - destruct (P =? 1); destruct Ho; lia.
    - unfold nth_chn.
      assert (Hd : (2 * q + (if P =? 1 then 0 else 1)) / 2 = q) by (destruct (P =? 1); lia).
      rewrite Hd. f_equal; [ lia | ].
      rewrite Z.even_add_mul_2 || rewrite Z.add_comm, Z.even_add_mul_2.
      destruct HP as [-> | ->]; reflexivity. }
Qed.

Lemma stray_irrelevant g g' Jm mx iso : 0 <= Jm ->
  construct_symmetric_pw_states_g g Jm mx iso = construct_symmetric_pw_states_g g' Jm mx iso
  /\ exists ss, construct_symmetric_pw_states_g g Jm mx iso = Ok ss.
Proof.
  intros HJ. rewrite !construct_g_eq by exact HJ. split; [ reflexivity | eexists; reflexivity ].
Qed.

Lemma deuterons g Jm mx iso ss :
  1 <= mx -> Z.Odd mx ->
  construct_symmetric_pw_states_g g Jm mx iso = Ok ss ->
  exists tbl, find_deuteron_channels ss = Ok tbl /\ Z.of_nat (length tbl) = ss_N_chn ss /\
  forall c, 0 <= c < ss_N_chn ss ->
    exists chn idx, channel_slice ss c = Ok chn /\ nth_error tbl (Z.to_nat c) = Some idx /\
      StronglySorted Z.lt idx /\
      (forall i, In i idx <-> 0 <= i /\ exists s, nth_error chn (Z.to_nat i) = Some s /\ is_deuteron s) /\
      (1 <= Jm -> length idx = if fst (nth_chn c) =? 1 then 2%nat else 3%nat).
Proof.
  intros Hmx Ho H. apply construct_g_inv in H. destruct H as [HJ ->].
  rewrite find_deuteron_tables by assumption. eexists. split; [ reflexivity | ].
  assert (HN : ss_N_chn (tables Jm mx iso) = mx + 1) by (apply length_keys_odd; assumption).
  rewrite HN, map_length, seq_length. split; [ lia | ]. intros c Hc.
  destruct (slice_spec Jm mx iso c HJ Hmx Ho Hc) as (l & H1 & H2 & _ & _).
  exists l, (deuteron_indices l). split; [ exact H1 | ]. split.
  { rewrite nth_error_map.
    rewrite (nth_error_nth' _ 0%nat) by (rewrite seq_length; lia). rewrite seq_nth by lia.
    cbn [option_map plus]. rewrite Z2Nat.id by lia. rewrite H2. reflexivity. }
  split; [ apply sorted_deuteron_from | ]. split.
  { intros i. unfold deuteron_indices. rewrite in_deuteron_from, Z.sub_0_r. split.
    - intros [H3 H4]. split; [ lia | exact H4 ].
    - intros (H3 & s & H4 & H5). split; [ | exists s; split; assumption ].
      assert (Hs : nth_error l (Z.to_nat i) <> None) by congruence.
      apply nth_error_Some in Hs. lia. }
  intros HJ1. rewrite H2. cbn [nth_chn fst]. unfold nth_chn. apply deuteron_count; [ assumption | | | ].
  1,3: lia. exists (c / 2). lia.
Qed.

Lemma numbering_tensor iso Jm r c :
  physical r -> physical c -> J_2N r <= Jm ->
  (matrix_of true iso r = matrix_of true iso c <-> same_2N_channel true r c) /\
  (exists i, snd (matrix_of true iso r) = Ok i /\
     0 <= i < if fst (matrix_of true iso r) then num_2N_coup_states true iso Jm
              else num_2N_unco_states true iso Jm) /\
  (interaction_allowed true r c = true ->
     same_2N_channel true r c /\
     (coupled_matrix true iso r c,
      unique_2N_idx true iso (coupled_matrix true iso r c) (L_2N r) (S_2N r) (J_2N r) (T_2N r))
     = matrix_of true iso r).
Proof.
  intros Hr Hc HJ. rewrite !matrix_of_id. split; [ apply unique_inj_tensor; assumption | ].
  split; [ apply unique_range_tensor; assumption | ].
  intros Hi. destruct (offdiag_tensor iso r c Hr Hc Hi) as (H1 & H2 & H3).
  split; [ exact H1 | ]. rewrite H3. rewrite H2. reflexivity.
Qed.

Lemma numbering_notensor Jm r c :
  physical r -> physical c -> J_2N r <= Jm ->
  (matrix_of false false r = matrix_of false false c <-> same_2N_channel false r c) /\
  (Jm <= 1 -> exists i, matrix_of false false r = (false, Ok i) /\
     0 <= i < num_2N_unco_states false false Jm).
Proof.
  intros Hr Hc HJ. rewrite !matrix_of_id. split; [ apply unique_inj_notensor; assumption | ].
  intros HM. destruct (unique_range_notensor Jm r Hr HJ HM) as (i & H1 & H2 & H3).
  exists i. split; [ | exact H3 ]. destruct (mat_id false false r). cbn [fst snd] in *. congruence.
Qed.

Lemma numbering_overflow Jm : 2 <= Jm ->
  exists s i, physical s /\ in_model_space Jm (2 * Jm + 1) false s /\
    matrix_of false false s = (false, Ok i) /\ num_2N_unco_states false false Jm <= i.
Proof.
  intros HJ.
  set (T := 1 - Jm mod 2). (* 1L_J with L=J, S=0: L+S+T odd *)
  exists (mkpw Jm 0 Jm T 0 1 (2 * Jm + 1) 1 (if Z.even (Jm + 0) then 1 else -1)), (6 * Jm).
  assert (Hph : physical (mkpw Jm 0 Jm T 0 1 (2 * Jm + 1) 1 (if Z.even (Jm + 0) then 1 else -1))).
  { constructor; pws; unfold couples; try reflexivity.
    - split; [ lia | split; [ lia | split; [ lia | exists 1; lia ] ] ].
    - split; [ lia | split; [ lia | split; [ lia | exists (1 + T); lia ] ] ].
    - split; [ lia | split; [ lia | split; [ lia | exists (2 * Jm); lia ] ] ].
    - split; [ lia | split; [ lia | split; [ lia | exists 1; lia ] ] ].
    - split; [ lia | split; [ lia | split; [ lia | exists (2 * Jm + 1); lia ] ] ].
    - split; [ lia | split; [ lia | split; [ lia | exists (1 + T); lia ] ] ].
    - exists (Jm / 2). lia. }
  split; [ exact Hph | ]. split.
  { constructor; pws; lia. }
  split.
  - rewrite matrix_of_id, mat_id_notensor by exact Hph. pws.
    replace (Jm =? 0) with false by lia. replace (Jm =? 1) with false by lia. cbn [Z.eqb].
    do 2 f_equal. lia.
  - unfold num_2N_unco_states. lia.
Qed.

Lemma numbering_iso s : physical s -> S_2N s = 0 -> J_2N s = 0 -> matrix_of false true s = (true, Err).
Proof.
  intros Hp HS HJ. apply phys_cases in Hp.
  assert (HL : L_2N s = 0) by lia.
  unfold matrix_of, coupled_matrix, coupled_via_L_2N, coupled_via_T_3N. rewrite HS, HJ, HL. reflexivity.
Qed.
