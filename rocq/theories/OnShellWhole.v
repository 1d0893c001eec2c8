(* The whole of find_on_shell_bins. *)
From Coq Require Import Reals Lra Sorted.
From Verif Require Import Common ArrayLib PWModel PWSpec SwpModel ResolventModel ResolventSpec GridModel GridSpec OnShellModel OnShellSpec
  OnShellProofs OnShellPropsLemmas OnShellBreakupProofs2.
Open Scope nat_scope.

Lemma whole_run iso J_2N_max Np Nq e_unco e_coup q states Eb inputs :
  (forall s, In s states -> physical s /\ (J_2N s <= J_2N_max)%Z) ->
  Z.of_nat (length e_unco) = (num_2N_unco_states true iso J_2N_max * Z.of_nat (Np + 1))%Z ->
  Z.of_nat (length e_coup) = (num_2N_coup_states true iso J_2N_max * Z.of_nat (2 * (Np + 1)))%Z ->
  partition_from_zero Nq q -> (- (Mn + Mp) < Eb)%R ->
  exists bound, pair_boundaries iso Np e_unco e_coup states bound /\
  ((forall a k, a < length states -> k < Np -> (bound a k < bound a (k + 1)%nat)%R) ->
  forall breakup,
  let cell := on_shell_cell bound q (length states) Nq Np in
  let run := find_on_shell_bins true iso breakup Np Nq e_unco e_coup q states Eb inputs in
  (Nq = 0 -> run = Exc) /\ (1 <= Nq -> run = Err \/ exists r, run = Ok r) /\
  forall os r, run = Ok (os, r) ->
    elastic_bins Nq q Eb inputs = Ok os /\
    (breakup = false -> r = None) /\
    (breakup = true -> exists cells ends, r = Some (cells, ends) /\
       length ends = length (os_bins os) + 1 /\ nth 0 ends 0 = 0 /\ nth (length (os_bins os)) ends 0 = length cells /\
       forall k i, nth_error (os_bins os) k = Some i ->
         let E := (3 * mid_momentum Eb (lower q i) (upper q i) * mid_momentum Eb (lower q i) (upper q i) / (4 * MN))%R in
         nth k ends 0 <= nth (k + 1) ends 0 <= length cells /\
         let mine := firstn (nth (k + 1) ends 0 - nth k ends 0) (skipn (nth k ends 0) cells) in
         ((E + Eb < 0)%R -> mine = []) /\
         ((0 <= E + Eb)%R -> mine <> [] /\
            forall t, In t mine <-> exists a iq ip, cell E a iq ip /\ stored_for_cell bound q E a iq ip t))).
Proof.
  intros H1 H2 H3 H4 HEb. exists (bnd iso Np e_unco e_coup states).
  split; [ exact (bnd_place iso J_2N_max Np e_unco e_coup states H1 H2 H3) | ].
  intros H5 breakup cell run.
  pose proof (breakup_main iso J_2N_max Np Nq e_unco e_coup q states Eb H1 H2 H3 H4 H5) as BM.
  assert (EE : forall os, elastic_bins Nq q Eb inputs = Ok os -> 1 <= Nq ->
      os_E os = map (fun i => 3 * mid_momentum Eb (lower q i) (upper q i) * mid_momentum Eb (lower q i) (upper q i) / (4 * MN))%R (os_bins os)).
  { intros os Ho HN. destruct (bins_bracket Nq q Eb inputs HN H4 HEb) as (mid & _ & _ & _ & H). destruct (H os Ho) as (_ & _ & _ & _ & Hq & HE).
    rewrite HE, Hq, map_map. reflexivity. }
  split; [ intros ->; unfold run, find_on_shell_bins, elastic_bins; reflexivity | ].
  split.
  - intros HN. unfold run, find_on_shell_bins.
    destruct (bins_bracket Nq q Eb inputs HN H4 HEb) as (mid & _ & _ & [Ho|(os & Ho)] & _); rewrite Ho; cbn [obind]; [ left; reflexivity | ].
    destruct breakup; [ | right; eexists; reflexivity ].
    destruct (BM (os_E os)) as (Br & [Bx|(cells & ends & Bo)] & _).
    + left. rewrite (proj2 Br Bx). reflexivity.
    + right. rewrite Bo. cbn [obind]. eexists; reflexivity.
  - intros os r Hr. unfold run, find_on_shell_bins in Hr.
    destruct (Nat.eq_dec Nq 0) as [->|HN0]; [ discriminate Hr | ]. assert (HN : 1 <= Nq) by lia.
    destruct (elastic_bins Nq q Eb inputs) as [os'| | |] eqn:Ho; try discriminate Hr. cbn [obind] in Hr.
    destruct breakup.
    + destruct (BM (os_E os')) as (Br & _ & BO).
      destruct (breakup_cells true iso Np Nq e_unco e_coup q states Eb (os_E os')) as [[cells ends]| | |] eqn:Bc; try discriminate Hr.
      cbn [obind] in Hr. assert (os' = os) as -> by congruence. assert (r = Some (cells, ends)) as -> by congruence.
      split; [ reflexivity | ]. split; [ discriminate | ]. intros _. exists cells, ends. split; [ reflexivity | ].
      destruct (BO cells ends eq_refl) as (L1 & L2 & L3 & L4). pose proof (EE os eq_refl HN) as HE.
      assert (Ll : length (os_E os) = length (os_bins os)) by (rewrite HE; apply map_length).
      rewrite Ll in L1, L3. split; [ exact L1 | ]. split; [ exact L2 | ]. split; [ exact L3 | ].
      intros k i Hk E. assert (HEk : nth_error (os_E os) k = Some E).
      { rewrite HE, nth_error_map, Hk. reflexivity. }
      destruct (L4 k E HEk) as (M1 & M2 & M3). split; [ exact M1 | ]. split; [ exact M2 | ].
      intros Hp. split; [ | exact (M3 Hp) ]. intros Hm. 
      assert (X : Err = @Ok (list (Z*Z*Z) * list nat) (cells, ends)); [ | discriminate X ].
      symmetry. apply (proj2 Br). exists E. split; [ eapply nth_error_In; exact HEk | ]. split; [ exact Hp | ].
      intros a iq ip Hc. assert (In (Z.of_nat a, Z.of_nat iq, Z.of_nat ip) []) as [].
      { rewrite <- Hm. apply (M3 Hp). exists a, iq, ip. split; [ exact Hc | left; reflexivity ]. }
    + assert (os' = os) as -> by congruence. assert (r = None) as -> by congruence.
      split; [ reflexivity | ]. split; [ reflexivity | discriminate ].
Qed.
