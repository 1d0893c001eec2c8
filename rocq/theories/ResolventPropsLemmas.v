From Coq Require Import Reals Lra.
From Coquelicot Require Import Coquelicot.
From Verif Require Import Common ArrayLib PWModel PWSpec PWChnProofs PWPropsLemmas SwpModel SwpProofs
  ResolventModel ResolventSpec ResolventProofs ResolventArrayProofs.
Open Scope R_scope.

Lemma Eq_spect Eb q : Eq_of Eb q = spectator_energy Mn (Mn + Mp + Eb) q.
Proof.
  unfold Eq_of, mu1, spectator_energy. replace (Mn + (Mn + Mp + Eb)) with (Mn + Mn + Mp + Eb) by ring. reflexivity.
Qed.

Lemma bound_cell E ql qu el eu :
  - (Mn + Mp) < el < 0 -> 0 <= ql < qu ->
  let k q := spectator_energy Mn (Mn + Mp + el) q in
  (k ql < k qu) /\
  (el + k ql < E <= el + k qu -> snd (cell_value E ql qu el eu) = - PI / (k qu - k ql)) /\
  (~ (el + k ql < E <= el + k qu) -> snd (cell_value E ql qu el eu) = 0) /\
  (E < el + k ql \/ el + k qu < E ->
     is_RInt (fun x => / (E - (el + x))) (k ql) (k qu) (fst (cell_value E ql qu el eu) * (k qu - k ql))).
Proof.
  intros [H1 H2] Hq k. unfold k. rewrite <- !Eq_spect. clear k.
  unfold cell_value. destruct (Rltb el 0) eqn:En; [ | apply Rltb_false in En; lra ].
  destruct (BC_imag E el qu ql H1 Hq) as [Ha Hb].
  split; [ apply Eq_increasing; assumption | ].
  split; [ intros H; apply Ha; lra | ]. split; [ intros H; apply Hb; lra | ].
  intros H. apply BC_real; try assumption; lra.
Qed.

Lemma continuum_cell E ql qu el eu :
  0 <= el < eu -> 0 <= ql < qu ->
  let k q := spectator_energy Mn (Mn + Mp) q in
  (k ql < k qu) /\
  snd (cell_value E ql qu el eu) = - PI * onshell_length E (k ql) (k qu) el eu / ((eu - el) * (k qu - k ql)) /\
  (0 < onshell_length E (k ql) (k qu) el eu <-> el + k ql < E < eu + k qu) /\
  (E < el + k ql \/ eu + k qu < E ->
     exists inner : R -> R,
       (forall p, el <= p <= eu -> is_RInt (fun x => / (E - (p + x))) (k ql) (k qu) (inner p)) /\
       is_RInt inner el eu (fst (cell_value E ql qu el eu) * ((eu - el) * (k qu - k ql)))).
Proof.
  intros He Hq k. unfold k.
  assert (X : forall q, spectator_energy Mn (Mn + Mp) q = Eq_of 0 q) by (intros; rewrite Eq_spect, Rplus_0_r; reflexivity).
  rewrite !X. clear k.
  assert (H0 : - (Mn + Mp) < 0) by (unfold Mn, Mp; lra).
  unfold cell_value. destruct (Rltb el 0) eqn:En; [ apply Rltb_true in En; lra | ].
  split; [ apply Eq_increasing; assumption | ].
  split; [ apply CC_imag; try assumption; lra | ].
  split; [ apply onshell_pos_iff; [ apply Eq_increasing; assumption | lra ] | ].
  intros H. apply CC_real; try assumption; lra.
Qed.

Lemma cell_sign E ql qu el eu :
  - (Mn + Mp) < el < eu -> 0 <= ql < qu ->
  snd (cell_value E ql qu el eu) <= 0 /\
  (snd (cell_value E ql qu el eu) <> 0 ->
     exists e q, el <= e <= eu /\ ql <= q <= qu /\
       E = e + spectator_energy Mn (Mn + Mp + Rmin el 0) q).
Proof.
  intros He Hq. destruct (imag_sign E ql qu el eu) as [H1 H2]; try lra; try assumption. split; [ exact H1 | ].
  intros Hn. specialize (H2 Hn).
  (* a point of the cell with the given energy *)
  assert (IVT : forall Eb e, - (Mn + Mp) < Eb -> Eq_of Eb ql <= e <= Eq_of Eb qu -> exists q, ql <= q <= qu /\ e = Eq_of Eb q).
  { intros Eb e HEb Hb. pose proof (mu1_pos Eb HEb) as Hm. unfold Eq_of in Hb |- *.
    assert (Hl : ql * ql <= 2 * mu1 Eb * e <= qu * qu).
    { destruct Hb as [Hb1 Hb2]. apply (Rmult_le_compat_l (2 * mu1 Eb)) in Hb1, Hb2; try lra.
      replace (2 * mu1 Eb * (ql * ql / (2 * mu1 Eb))) with (ql * ql) in Hb1 by (field; lra).
      replace (2 * mu1 Eb * (qu * qu / (2 * mu1 Eb))) with (qu * qu) in Hb2 by (field; lra). lra. }
    exists (sqrt (2 * mu1 Eb * e)). assert (0 <= 2 * mu1 Eb * e) by nra. split; [ split | ].
    - rewrite <- (sqrt_square ql) by lra. apply sqrt_le_1_alt. lra.
    - rewrite <- (sqrt_square qu) by lra. apply sqrt_le_1_alt. lra.
    - rewrite sqrt_sqrt by assumption. field. lra. }
  destruct H2 as [[Hneg H2]|[Hpos H2]].
  - rewrite Rmin_left by lra. setoid_rewrite <- Eq_spect. destruct (IVT el (E - el)) as (q & Hr & He'); [ lra | lra | ].
    exists el, q. repeat split; try lra.
  - rewrite Rmin_right by lra. setoid_rewrite <- Eq_spect.
    assert (H0 : - (Mn + Mp) < 0) by (unfold Mn, Mp; lra). pose proof (Eq_increasing 0 ql qu H0 Hq) as Hi.
    pose (e := Rmax el (E - Eq_of 0 qu)).
    destruct (IVT 0 (E - e)) as (q & Hr & He'); [ lra | | ].
    { unfold e. unfold Rmax; destruct (Rle_dec _ _); lra. }
    exists e, q. repeat split; try lra; unfold e, Rmax; destruct (Rle_dec _ _); lra.
Qed.

Lemma array_props iso Jm Np Nq e_unco e_coup q states energies G :
  (forall s, In s states -> physical s /\ (J_2N s <= Jm)%Z) ->
  Z.of_nat (length e_unco) = (num_2N_unco_states true iso Jm * zn (Np + 1))%Z ->
  Z.of_nat (length e_coup) = (num_2N_coup_states true iso Jm * zn (2 * (Np + 1)))%Z ->
  length q = (Nq + 1)%nat -> length G = (length energies * (length states * Np * Nq))%nat ->
  exists G', all_resolvents true iso Np Nq e_unco e_coup q states energies G = Ok G' /\ length G' = length G /\
    forall j E a s iq p, nth_error energies j = Some E -> nth_error states a = Some s -> (iq < Nq)%nat -> (p < Np)%nat ->
      exists coup i, matrix_of true iso s = (coup, Ok i) /\
        let e := if coup then e_coup else e_unco in
        let o := e_offset Np coup i s in
        (o + p + 1 < length e)%nat /\
        nth_error G' (j * (length states * Np * Nq) + (a * Nq * Np + iq * Np + p))
        = Some (cell_value E (nth iq q 0) (nth (iq + 1) q 0) (nth (o + p) e 0) (nth (o + p + 1) e 0)).
Proof.
  intros Hs Lu Lc Lq LG.
  destruct (all_resolvents_spec iso Jm Np Nq e_unco e_coup q states Hs Lu Lc Lq energies G LG) as (G' & H1 & H2 & H3).
  exists G'. split; [ exact H1 | ]. split; [ exact H2 | ]. intros j E a s iq p Hj Ha Hq Hp.
  specialize (H3 j E a s iq p Hj Ha Hq Hp). destruct (Hs s (nth_error_In _ _ Ha)) as [Hph HJ].
  destruct (e_block_spec iso Np Jm s Hph HJ (phys_T3 s Hph)) as (coup & i & Hm & Hi & Hb).
  exists coup, i. split; [ exact Hm | ]. cbn zeta. split; [ eapply offset_bound; eassumption | ].
  rewrite H3. unfold cell_of. rewrite Hm. reflexivity.
Qed.
