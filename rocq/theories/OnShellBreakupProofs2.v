From Coq Require Import Reals Lra Sorted.
From Verif Require Import Common ArrayLib PWModel PWSpec PWChnProofs PWPropsLemmas SwpModel SwpProofs ResolventModel ResolventSpec ResolventArrayProofs
  GridModel GridSpec GridProofs GridPropsLemmas OnShellModel OnShellSpec OnShellProofs OnShellBreakupProofs OnShellPropsLemmas.
Open Scope nat_scope.

Lemma E_free_eq x : E_free x = q_energy x.
Proof. unfold E_free, q_energy, mu1_free, reduced_mass, Mn, Mp. lra. Qed.

Lemma neighbours_eq E el eu kl ku p q x : (el <= eu)%R -> (kl < ku)%R -> (el + kl <= E <= eu + ku)%R ->
  In x (neighbours E el eu kl ku p q) <->
  let dp := p_side E el eu kl ku in let dq := q_side E el eu kl ku in
  (x = (q + dq, p) \/ x = (q, p + dp) \/ x = (q + dq, p + dp))%Z.
Proof.
  intros He Hk HE.
  assert (S : forall dp dq x, (dp = 1 \/ dp = -1)%Z -> (dq = 1 \/ dq = -1)%Z ->
    In x (square (Z.min p (p + dp)) (Z.max p (p + dp)) (Z.min q (q + dq)) (Z.max q (q + dq)) p q) <->
    (x = (q + dq, p) \/ x = (q, p + dp) \/ x = (q + dq, p + dp))%Z).
  { clear. intros dp dq [qj pi] Hp Hq. unfold square. rewrite in_flat_map. split.
    - intros (pi' & Hpi & H). apply in_flat_map in H. destruct H as (qj' & Hqj & H). apply in_for_range1 in Hpi, Hqj.
      destruct (negb (pi' =? p) || negb (qj' =? q))%Z eqn:E; [ | contradiction ]. destruct H as [H|[]]. injection H as -> ->.
      assert (pi = p \/ pi = p + dp)%Z by lia. assert (qj = q \/ qj = q + dq)%Z by lia.
      destruct H, H0; subst; try tauto. rewrite !Z.eqb_refl in E. discriminate.
    - intros H. exists pi. assert (Hpq : (pi = p /\ qj = q + dq \/ pi = p + dp /\ qj = q \/ pi = p + dp /\ qj = q + dq)%Z).
      { destruct H as [H|[H|H]]; injection H as -> ->; tauto. }
      split; [ apply in_for_range1; lia | ]. apply in_flat_map. exists qj. split; [ apply in_for_range1; lia | ].
      destruct (negb (pi =? p) || negb (qj =? q))%Z eqn:E; [ left; reflexivity | ]. lia. }
  unfold neighbours, p_side, q_side. set (Ep := (0.5 * (eu + el))%R). set (Eq := (0.5 * (ku + kl))%R).
  assert (Hep : Ep = ((eu + el) / 2)%R) by (unfold Ep; lra). assert (Heq : Eq = ((ku + kl) / 2)%R) by (unfold Eq; lra).
  destruct (Rle_dec ((eu + el) / 2 + (ku + kl) / 2) E) as [H1|H1].
  - assert (Rleb (Eq + Ep) E && Rleb E (eu + ku) = true)%R as -> by (rewrite andb_true_iff, !Rleb_true; lra).
    specialize (S 1 1 x)%Z. cbn zeta in *. rewrite !Z.max_r, !Z.min_l in S by lia. apply S; lia.
  - assert (Rleb (Eq + Ep) E && Rleb E (eu + ku) = false)%R as -> by (apply andb_false_iff; left; apply Rleb_false; lra).
    destruct (Rle_dec ((ku + kl) / 2 + el) E) as [H2|H2].
    + assert (Rleb (Eq + el) E && Rleb E (Ep + ku) = true)%R as -> by (rewrite andb_true_iff, !Rleb_true; lra).
      specialize (S (-1) 1 x)%Z. cbn zeta in *. rewrite Z.max_l, Z.min_r, Z.max_r, Z.min_l in S by lia.
      replace (p - 1)%Z with (p + -1)%Z by lia. apply S; lia.
    + assert (Rleb (Eq + el) E && Rleb E (Ep + ku) = false)%R as -> by (apply andb_false_iff; left; apply Rleb_false; lra).
      assert (Rleb (el + kl) E && Rleb E (Eq + Ep) = true)%R as -> by (rewrite andb_true_iff, !Rleb_true; lra).
      specialize (S (-1) (-1) x)%Z. cbn zeta in *. rewrite !Z.max_l, !Z.min_r in S by lia.
      replace (p - 1)%Z with (p + -1)%Z by lia. replace (q - 1)%Z with (q + -1)%Z by lia. apply S; lia.
Qed.

Lemma cell_eq E a iq ip el eu kl ku t : (el <= eu)%R -> (kl < ku)%R ->
  In t (cell_triples E a iq ip el eu kl ku) <->
  holds_energy E el eu kl ku /\ stored_for E el eu kl ku (Z.of_nat a) (Z.of_nat iq) (Z.of_nat ip) t.
Proof.
  intros He Hk. unfold cell_triples, holds_energy.
  destruct (Rleb (el + kl) E && Rleb E (eu + ku) && Rleb 0 el && Rleb 0 eu) eqn:C.
  - rewrite !andb_true_iff, !Rleb_true in C. assert (Hc : (el + kl <= E <= eu + ku)%R) by tauto. cbn [In]. rewrite in_map_iff. split.
    + intros [<-|(x & <- & H)]; (split; [ tauto | ]); unfold stored_for; cbn zeta; [ left; reflexivity | ].
      apply neighbours_eq in H; [ | assumption .. ]. cbn zeta in H. unfold zn. destruct H as [->|[->| ->]]; cbn [fst snd]; tauto.
    + intros [_ H]. unfold stored_for in H. cbn zeta in H. unfold zn in *. destruct H as [->|H]; [ left; reflexivity | right ].
      destruct H as [->|[->| ->]]; eexists; (split; [ | apply neighbours_eq; [ assumption .. | ] ]); cbn zeta;
        [ | left; reflexivity | | right; left; reflexivity | | right; right; reflexivity ]; reflexivity.
  - split; [ intros [] | ]. intros ((Hc & H0 & H1) & _). exfalso.
    assert (Rleb (el + kl) E && Rleb E (eu + ku) && Rleb 0 el && Rleb 0 eu = true)%R by (rewrite !andb_true_iff, !Rleb_true; tauto). congruence.
Qed.

Lemma part_k Nq q i : partition_from_zero Nq q -> i < Nq -> (q_energy (lower q i) < q_energy (upper q i))%R.
Proof.
  intros P H. pose proof (part_lu Nq q i P H). unfold q_energy, Rdiv. apply Rmult_lt_compat_r; [ | nra ].
  unfold reduced_mass, Mn, Mp. lra.
Qed.

Lemma ends_props (cs : list (list (Z * Z * Z))) :
  length (ends_of cs) = length cs + 1 /\ nth 0 (ends_of cs) 0 = 0 /\ nth (length cs) (ends_of cs) 0 = length (concat cs).
Proof.
  unfold ends_of. rewrite map_length, seq_length, !nth_map_seq by lia. cbn. rewrite firstn_all. tauto.
Qed.

Section Main.
Variables (iso : bool) (Jm : Z) (Np Nq : nat) (e_unco e_coup q : list R) (states : list pw) (Eb : R).
Hypothesis Hstates : forall s, In s states -> physical s /\ (J_2N s <= Jm)%Z.
Hypothesis Lunco : Z.of_nat (length e_unco) = (num_2N_unco_states true iso Jm * Z.of_nat (Np + 1))%Z.
Hypothesis Lcoup : Z.of_nat (length e_coup) = (num_2N_coup_states true iso Jm * Z.of_nat (2 * (Np + 1)))%Z.
Hypothesis P : partition_from_zero Nq q.

Definition bnd (a k : nat) : R := match nth_error states a with Some s => e_bound_of iso Np e_unco e_coup s k | None => 0%R end.
Lemma bnd_place a s : nth_error states a = Some s ->
  exists coup i, matrix_of true iso s = (coup, Ok i) /\
    forall k, k <= Np -> nth_error (if coup then e_coup else e_unco) (e_offset Np coup i s + k) = Some (bnd a k).
Proof.
  intros Ha. pose proof (nth_error_In _ _ Ha) as Hs. destruct (Hstates s Hs) as [Hp HJ].
  destruct (e_block_spec iso Np Jm s Hp HJ (phys_T3 s Hp)) as (coup & i & Hm & Hi & Hb). exists coup, i. split; [ exact Hm | ].
  intros k Hk. unfold bnd. rewrite Ha. unfold e_bound_of. rewrite Hm. apply nth_error_nth'.
  assert (Hn : (i + 1 <= (if coup then num_2N_coup_states true iso Jm else num_2N_unco_states true iso Jm))%Z) by lia.
  unfold e_offset. destruct coup; cbn [andb]; [ destruct (second_half s) | ]; nia.
Qed.

(* ascending pair-energy boundaries, as the wave-packet construction delivers them (C32) *)
Hypothesis Hasc : forall a k, a < length states -> k < Np -> (bnd a k < bnd a (k + 1))%R.
Definition shell := on_shell_cell bnd q (length states) Nq Np.
Definition stored := stored_for_cell bnd q.

Lemma in_energy_shell E t : In t (energy_list iso Np Nq e_unco e_coup q states E) <-> exists a iq ip, shell E a iq ip /\ stored E a iq ip t.
Proof.
  rewrite (in_energy iso Jm Np Nq e_unco e_coup q states Hstates Lunco Lcoup (proj1 P)). split.
  - intros (a & s & iq & ip & Ha & Hq & Hp & H). unfold cell_list in H. rewrite !E_free_eq in H.
    assert (La : a < length states) by (apply nth_error_Some; congruence).
    assert (Hb : forall k, e_bound_of iso Np e_unco e_coup s k = bnd a k) by (intros k; unfold bnd; rewrite Ha; reflexivity).
    rewrite !Hb in H. apply cell_eq in H; [ | left; apply Hasc; assumption | apply (part_k Nq); assumption ].
    exists a, iq, ip. unfold shell, stored, on_shell_cell, stored_for_cell. tauto.
  - intros (a & iq & ip & ((La & Hq & Hp) & Hh) & Hs). destruct (nth_error states a) as [s|] eqn:Ha; [ | apply nth_error_None in Ha; lia ].
    exists a, s, iq, ip. repeat split; try assumption. unfold cell_list. rewrite !E_free_eq.
    assert (Hb : forall k, e_bound_of iso Np e_unco e_coup s k = bnd a k) by (intros k; unfold bnd; rewrite Ha; reflexivity).
    rewrite !Hb. apply cell_eq; [ left; apply Hasc; assumption | apply (part_k Nq); assumption | split; assumption ].
Qed.

Lemma breakup_main Es :
  (breakup_cells true iso Np Nq e_unco e_coup q states Eb Es = Err <->
     exists E, In E Es /\ (0 <= E + Eb)%R /\ forall a iq ip, ~ shell E a iq ip) /\
  ((exists E, In E Es /\ (0 <= E + Eb)%R /\ forall a iq ip, ~ shell E a iq ip) \/
   exists cells ends, breakup_cells true iso Np Nq e_unco e_coup q states Eb Es = Ok (cells, ends)) /\
  forall cells ends, breakup_cells true iso Np Nq e_unco e_coup q states Eb Es = Ok (cells, ends) ->
    length ends = length Es + 1 /\ nth 0 ends 0 = 0 /\ nth (length Es) ends 0 = length cells /\
    forall k E, nth_error Es k = Some E ->
      nth k ends 0 <= nth (k + 1) ends 0 <= length cells /\
      let mine := firstn (nth (k + 1) ends 0 - nth k ends 0) (skipn (nth k ends 0) cells) in
      ((E + Eb < 0)%R -> mine = []) /\
      ((0 <= E + Eb)%R -> forall t, In t mine <-> exists a iq ip, shell E a iq ip /\ stored E a iq ip t).
Proof.
  assert (Lq : length q = Nq + 1) by apply P.
  rewrite (cells_ok iso Jm Np Nq e_unco e_coup q states Eb Hstates Lunco Lcoup Lq).
  set (good := fun E => Rltb (E + Eb) 0 || match energy_list iso Np Nq e_unco e_coup q states E with [] => false | _ => true end).
  assert (Hgood : forall E, good E = false <-> ((0 <= E + Eb)%R /\ forall a iq ip, ~ shell E a iq ip)).
  { intros E. unfold good. split.
    - intros H. apply orb_false_iff in H. destruct H as [H1 H2]. assert (~ (E + Eb < 0)%R) by (rewrite <- Rltb_true; congruence).
      split; [ lra | ]. intros a iq ip Hs. pose proof (proj2 (in_energy_shell E (Z.of_nat a, Z.of_nat iq, Z.of_nat ip))) as Hin.
      destruct (energy_list iso Np Nq e_unco e_coup q states E); [ | discriminate ]. apply Hin. exists a, iq, ip. split; [ exact Hs | left; reflexivity ].
    - intros [H1 H2]. apply orb_false_iff. split; [ destruct (Rltb (E + Eb) 0) eqn:R; [ apply Rltb_true in R; lra | reflexivity ] | ].
      pose proof (proj1 (in_energy_shell E (match energy_list iso Np Nq e_unco e_coup q states E with t :: _ => t | [] => (0, 0, 0)%Z end))) as Hin.
      destruct (energy_list iso Np Nq e_unco e_coup q states E) as [|t l]; [ reflexivity | ].
      destruct (Hin (or_introl eq_refl)) as (a & iq & ip & Hs & _). exfalso. exact (H2 a iq ip Hs). }
  assert (Hall : forallb good Es = false <-> exists E, In E Es /\ (0 <= E + Eb)%R /\ forall a iq ip, ~ shell E a iq ip).
  { clear -Hgood. induction Es as [|E l IH]; cbn [forallb]; [ split; [ discriminate | intros (? & [] & _) ] | ].
    rewrite andb_false_iff, IH, Hgood. split.
    - intros [H|(E' & HE & H)]; [ exists E; split; [ left; reflexivity | exact H ] | exists E'; split; [ right; exact HE | exact H ] ].
    - intros (E' & [->|HE] & H); [ left; exact H | right; exists E'; split; assumption ]. }
  destruct (forallb good Es) eqn:F.
  - split; [ split; [ discriminate | intros H; apply Hall in H; discriminate ] | ]. split; [ right; eexists _, _; reflexivity | ].
    intros cells ends H. injection H as <- <-. set (ch := chunk iso Np Nq e_unco e_coup q states Eb).
    destruct (ends_props (map ch Es)) as (L & Z0 & Zn). rewrite map_length in *. split; [ exact L | ]. split; [ exact Z0 | ]. split; [ exact Zn | ].
    intros k E Hk. assert (Hk' : nth_error (map ch Es) k = Some (ch E)) by (rewrite nth_error_map, Hk; reflexivity).
    destruct (chunk_slice (map ch Es) k (ch E) Hk') as [He Hs].
    assert (Hle : nth k (ends_of (map ch Es)) 0 + length (ch E) <= length (concat (map ch Es))).
    { destruct (Nat.le_gt_cases (nth k (ends_of (map ch Es)) 0) (length (concat (map ch Es)))) as [Hl|Hl].
      - apply (f_equal (@length _)) in Hs. rewrite firstn_length, skipn_length in Hs. lia.
      - exfalso. revert Hl. unfold ends_of. assert (k < length Es) by (apply nth_error_Some; congruence). rewrite nth_map_seq by (rewrite map_length; lia).
        intros Hl. pose proof (firstn_skipn k (map ch Es)) as Hfs. apply (f_equal (fun l => length (concat l))) in Hfs. rewrite concat_app, app_length in Hfs. lia. }
    split; [ lia | ]. rewrite He. replace (nth k (ends_of (map ch Es)) 0 + length (ch E) - nth k (ends_of (map ch Es)) 0) with (length (ch E)) by lia.
    cbn zeta. rewrite Hs. unfold ch, chunk. split.
    + intros HE. apply Rltb_true in HE. rewrite HE. reflexivity.
    + intros HE. destruct (Rltb (E + Eb) 0) eqn:R; [ apply Rltb_true in R; lra | ]. intros t. apply in_energy_shell.
  - split; [ split; [ intros _; apply Hall; reflexivity | reflexivity ] | ]. split; [ left; apply Hall; reflexivity | discriminate ].
Qed.

Lemma breakup_rim Es cells ends : breakup_cells true iso Np Nq e_unco e_coup q states Eb Es = Ok (cells, ends) ->
  forall t, In t cells -> (0 <= fst (fst t) < Z.of_nat (length states))%Z /\
    (-1 <= snd (fst t) <= Z.of_nat Nq)%Z /\ (-1 <= snd t <= Z.of_nat Np)%Z /\
    (in_grid Np Nq (snd (fst t), snd t) \/
     exists E a iq ip, In E Es /\ shell E a iq ip /\ stored E a iq ip t /\ (iq = 0 \/ iq + 1 = Nq \/ ip = 0 \/ ip + 1 = Np)).
Proof.
  assert (Lq : length q = Nq + 1) by apply P.
  rewrite (cells_ok iso Jm Np Nq e_unco e_coup q states Eb Hstates Lunco Lcoup Lq). intros H t Ht.
  destruct (forallb _ Es); [ | discriminate ]. injection H as <- <-. apply in_concat in Ht. destruct Ht as (c & Hc & Ht).
  apply in_map_iff in Hc. destruct Hc as (E & <- & HE). unfold chunk in Ht. destruct (Rltb (E + Eb) 0); [ destruct Ht | ].
  apply in_energy_shell in Ht. destruct Ht as (a & iq & ip & Hs & Hst). pose proof Hs as ((La & Hq & Hp) & _).
  assert (Hr : (iq = 0 \/ iq + 1 = Nq \/ ip = 0 \/ ip + 1 = Np) \/ ~ (iq = 0 \/ iq + 1 = Nq \/ ip = 0 \/ ip + 1 = Np)) by lia.
  assert (HR : (iq = 0 \/ iq + 1 = Nq \/ ip = 0 \/ ip + 1 = Np) ->
     exists E a iq ip, In E Es /\ shell E a iq ip /\ stored E a iq ip t /\ (iq = 0 \/ iq + 1 = Nq \/ ip = 0 \/ ip + 1 = Np)).
  { intros. exists E, a, iq, ip. repeat split; try assumption; apply Hs. }
  cut ((0 <= fst (fst t) < Z.of_nat (length states))%Z /\ (-1 <= snd (fst t) <= Z.of_nat Nq)%Z /\ (-1 <= snd t <= Z.of_nat Np)%Z /\
    (in_grid Np Nq (snd (fst t), snd t) \/ (iq = 0 \/ iq + 1 = Nq \/ ip = 0 \/ ip + 1 = Np))); [ tauto | ]. clear HR.
  unfold stored, stored_for_cell, stored_for, p_side, q_side in Hst. unfold in_grid. cbn zeta in Hst.
  repeat match type of Hst with context [Rle_dec ?x ?y] => destruct (Rle_dec x y) end;
    destruct Hst as [-> |[-> |[-> | ->]]]; cbn [fst snd]; (destruct Hr as [Hr|Hr]; [ repeat split; try lia; right; exact Hr | lia ]).
Qed.
End Main.
