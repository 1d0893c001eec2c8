From Coq Require Import Reals Lra Permutation.
From Coquelicot Require Import Coquelicot.
From Verif Require Import Common ArrayLib PWModel SwpModel SwpSpec SwpProofs.
Open Scope nat_scope.

Lemma flat_map_ext_in {A B} (f g : A -> list B) l : (forall x, In x l -> f x = g x) -> flat_map f l = flat_map g l.
Proof. induction l as [|x l IH]; cbn; intros H; [ reflexivity | ]. rewrite H by auto. rewrite IH; [ reflexivity | ]. intros; apply H; auto. Qed.

Lemma hamiltonian_packed N baseV H0 V pre post :
  length H0 = N -> baseV + N * N <= length V ->
  let A r c := (nth (baseV + r * N + c) V 0 + (if Nat.eqb r c then nth r H0 0 else 0))%R in
  length (upper_packed N A) = N * (N + 1) / 2 /\
  full_hamiltonian (pre ++ repeat 0%R (N * (N + 1) / 2) ++ post) (Z.of_nat (length pre)) H0 V baseV N
  = Ok (pre ++ upper_packed N A ++ post).
Proof.
  intros LH LV A.
  change (upper_packed N A) with (flat_map (spec_row N baseV H0 V) (seq 0 N)).
  split; [ apply spec_len; assumption | ]. rewrite <- (spec_len N baseV H0 V LH LV). apply full_hamiltonian_spec; assumption.
Qed.

Lemma mu23_pos : (0 < mu23)%R.
Proof. unfold mu23, Mp, Mn. apply Rdiv_lt_0_compat; lra. Qed.

Lemma free_average Np p H0 base :
  length p = Np + 1 -> base + Np <= length H0 ->
  exists H', free_hamiltonian Np p H0 base = Ok H' /\ length H' = length H0 /\
   (forall j, j < base \/ base + Np <= j -> nth_error H' j = nth_error H0 j) /\
   forall i, i < Np -> is_RInt (fun x => x * x / (2 * mu23))%R (nth i p 0%R) (nth (i + 1) p 0%R)
     (nth (base + i) H' 0 * (nth (i + 1) p 0 - nth i p 0))%R.
Proof.
  intros Lp LH. destruct (free_hamiltonian_ok Np p H0 base Lp LH) as (H' & E & L & W & O).
  exists H'. split; [ exact E | ]. split; [ exact L | ]. split; [ exact O | ]. intros i Hi. rewrite (nth_error_nth _ _ 0%R (W i Hi)).
  set (a := nth i p 0%R). set (b := nth (i + 1) p 0%R).
  pose proof mu23_pos as Hmu.
  assert (HI : is_RInt (fun x => x * x / (2 * mu23))%R a b
    (minus ((fun x => x * x * x / (6 * mu23))%R b) ((fun x => x * x * x / (6 * mu23))%R a))).
  { apply (@is_RInt_derive R_CompleteNormedModule (fun x => x * x * x / (6 * mu23))%R (fun x => x * x / (2 * mu23))%R).
    - intros x _. auto_derive; [ trivial | ]. field. lra.
    - intros x _. apply continuity_pt_filterlim. unfold Rdiv. reg. }
  replace ((b * b + b * a + a * a) / (6 * mu23) * (b - a))%R
    with (minus ((fun x => x * x * x / (6 * mu23))%R b) ((fun x => x * x * x / (6 * mu23))%R a)); [ exact HI | ].
  unfold minus, plus, opp. cbn. field. lra.
Qed.

Lemma src_lo' Np i : i < Np -> src Np i = 2 * i.
Proof. unfold src. intros. destruct (Nat.ltb_spec i Np); lia. Qed.
Lemma src_hi' Np i : src Np (i + Np) = 2 * i + 1.
Proof. unfold src. destruct (Nat.ltb_spec (i + Np) Np); lia. Qed.

Lemma map_permute {A} (f g : nat -> A) (s : nat -> nat) n :
  (forall k, k < n -> f k = g (s k)) -> Permutation (map s (seq 0 n)) (seq 0 n) ->
  Permutation (map f (seq 0 n)) (map g (seq 0 n)).
Proof.
  intros Hf Hp. replace (map f (seq 0 n)) with (map g (map s (seq 0 n))); [ apply Permutation_map, Hp | ].
  rewrite map_map. apply map_ext_in. intros k Hk. apply in_seq in Hk. symmetry. apply Hf. lia.
Qed.

Lemma reorder_props {A} Np (vals vecs : list A) :
  length vals = 2 * Np -> length vecs = 4 * Np * Np ->
  exists vals' vecs', reorder Np vals vecs = Ok (vals', vecs') /\
    length vals' = 2 * Np /\ length vecs' = 4 * Np * Np /\
    (forall i, i < Np ->
       eigenpair (2 * Np) vals' vecs' i = eigenpair (2 * Np) vals vecs (2 * i) /\
       eigenpair (2 * Np) vals' vecs' (Np + i) = eigenpair (2 * Np) vals vecs (2 * i + 1)) /\
    Permutation (eigenpairs (2 * Np) vals' vecs') (eigenpairs (2 * Np) vals vecs).
Proof.
  intros Lv Lw. destruct (reorder_spec Np vals vecs Lv Lw) as (vals' & vecs' & E & L1 & L2 & Hv & Hw).
  exists vals', vecs'. split; [ exact E | ]. split; [ exact L1 | ]. split; [ exact L2 | ].
  assert (P : forall k, k < 2 * Np -> eigenpair (2 * Np) vals' vecs' k = eigenpair (2 * Np) vals vecs (src Np k)).
  { intros k Hk. unfold eigenpair. rewrite Hv by exact Hk. f_equal. apply map_ext_in. intros j Hj.
    apply in_seq in Hj. apply Hw; lia. }
  split.
  - intros i Hi. rewrite !P by lia. rewrite src_lo' by exact Hi. rewrite (Nat.add_comm Np i), src_hi'. auto.
  - unfold eigenpairs. apply (map_permute _ _ (src Np)); [ exact P | apply src_perm ].
Qed.

(* the complete treatment of one channel *)
Lemma look_ok_pos w E0 : (forall x, In x w -> (0 < x)%R) -> look_for_unphysical w false E0 = Ok E0.
Proof. intros H. apply (look_for_spec w false E0 E0). left. split; [ reflexivity | ]. split; [ | reflexivity ]. intros x Hx. specialize (H x Hx). lra. Qed.

Lemma look_ok_3S1 w E0 : 1 <= length w -> (nth 0 w 0 < 0)%R -> (forall i, 1 <= i < length w -> (0 < nth i w 0)%R) ->
  look_for_unphysical w true E0 = Ok (nth 0 w 0%R).
Proof.
  intros Hl H0 H. apply (look_for_spec w true E0 (nth 0 w 0%R)). right. split; [ reflexivity | ].
  exists 0. split; [ destruct w; [ cbn in Hl; lia | reflexivity ] | ]. split; [ exact H0 | ].
  intros j y Hy Hj. assert (j < length w) by (apply nth_error_Some; congruence).
  specialize (H j ltac:(lia)). rewrite (nth_error_nth _ _ 0%R Hy) in H. lra.
Qed.

Lemma nth_pos w : (forall x, In x w -> (0 < x)%R) -> forall i, i < length w -> (0 < nth i w 0)%R.
Proof. intros H i Hi. apply H, nth_In, Hi. Qed.

Lemma bins_from_bnd Np (e lam : nat -> R) :
  2 <= Np -> (forall i, i <= Np -> e i = bnd lam Np false i) ->
  (forall a b, a < b < Np -> (lam a < lam b)%R) -> (0 < lam 0%nat)%R -> scattering_bins Np e lam.
Proof.
  intros H2 He Hs H0. destruct (bnd_order lam Np H2 Hs H0) as [Hz Hi]. split.
  - rewrite He by lia. exact Hz.
  - intros i Hlt. rewrite !He by lia. replace (i + 1) with (S i) by lia. apply Hi, Hlt.
Qed.
Lemma dbins_from_bnd Np (e lam : nat -> R) :
  3 <= Np -> (forall i, i <= Np -> e i = bnd lam Np true i) ->
  (forall a b, a < b < Np -> (lam a < lam b)%R) -> (lam 0%nat < 0)%R -> (0 < lam 1%nat)%R -> deuteron_bins Np e lam.
Proof.
  intros H2 He Hs H0 H1. destruct (bnd_order_3S1 lam Np H2 Hs H0 H1) as (Hz & Hz1 & Hi). split; [ | split; [ | split ] ].
  - rewrite He by lia. exact Hz.
  - rewrite He by lia. exact Hz1.
  - rewrite !He by lia. rewrite Hz, Hz1. exact H0.
  - intros i Hlt. rewrite !He by lia. replace (i + 1) with (S i) by lia. apply Hi; lia.
Qed.

Definition frame (e e' : list R) (base n : nat) : Prop :=
  length e' = length e /\ forall j, j < base \/ base + n <= j -> nth j e' 0%R = nth j e 0%R.

Lemma unco_bins w z e base Np E0 :
  2 <= Np -> length w = Np -> increasing w -> (forall x, In x w -> (0 < x)%R) -> base + (Np + 1) <= length e ->
  exists e', swp_channel w z e (Z.of_nat base) Np false false E0 = Ok (e', z, E0) /\
    scattering_bins Np (fun i => nth (base + i) e' 0%R) (fun i => nth i w 0%R) /\
    length e' = length e /\ forall j, j < base \/ base + (Np + 1) <= j -> nth j e' 0%R = nth j e 0%R.
Proof.
  intros H2 Lw Hs Hp Le. destruct (bb_spec w e base Np false false H2 Lw Le) as (e' & E & L & V & O).
  exists e'. unfold swp_channel. rewrite look_ok_pos by exact Hp. cbn [obind]. change (Z.of_nat base) with (zn base).
  rewrite E. cbn [obind]. split; [ reflexivity | ]. split; [ | split; assumption ].
  apply bins_from_bnd; [ exact H2 | intros i Hi; apply V, Hi | | ].
  - intros a b Hab. apply Hs. lia.
  - apply nth_pos; [ exact Hp | lia ].
Qed.

Lemma unco_bins_3S1 w z e base Np E0 :
  3 <= Np -> length w = Np -> increasing w -> (nth 0 w 0 < 0)%R -> (0 < nth 1 w 0)%R -> base + (Np + 1) <= length e ->
  exists e', swp_channel w z e (Z.of_nat base) Np false true E0 = Ok (e', z, nth 0 w 0%R) /\
    deuteron_bins Np (fun i => nth (base + i) e' 0%R) (fun i => nth i w 0%R) /\
    length e' = length e /\ forall j, j < base \/ base + (Np + 1) <= j -> nth j e' 0%R = nth j e 0%R.
Proof.
  intros H3 Lw Hs Hn Hp Le. destruct (bb_spec w e base Np false true ltac:(lia) Lw Le) as (e' & E & L & V & O).
  exists e'. unfold swp_channel. rewrite look_ok_3S1; [ | lia | exact Hn | ].
  - cbn [obind]. change (Z.of_nat base) with (zn base).
    rewrite E. cbn [obind]. split; [ reflexivity | ]. split; [ | split; assumption ].
    apply dbins_from_bnd; [ exact H3 | intros i Hi; apply V, Hi | | exact Hn | exact Hp ].
    intros a b Hab. apply Hs. lia.
  - intros i Hi. destruct (Nat.eq_dec i 1) as [->|]; [ exact Hp | ].
    apply Rlt_trans with (nth 1 w 0%R); [ exact Hp | ]. apply Hs. lia.
Qed.

Lemma reordered_nth Np (w z : list R) : length w = 2 * Np -> length z = 4 * Np * Np ->
  exists w' z', reorder Np w z = Ok (w', z') /\ length w' = 2 * Np /\
   (forall i, i < Np -> nth i w' 0%R = nth (2 * i) w 0%R /\ nth (Np + i) w' 0%R = nth (2 * i + 1) w 0%R).
Proof.
  intros Lw Lz. destruct (reorder_spec Np w z Lw Lz) as (w' & z' & E & L1 & _ & Hv & _).
  exists w', z'. split; [ exact E | ]. split; [ exact L1 | ].
  assert (G : forall k, k < 2 * Np -> nth k w' 0%R = nth (src Np k) w 0%R).
  { intros k Hk. specialize (Hv k Hk).
    assert (src Np k < length w) by (unfold src; destruct (Nat.ltb_spec k Np); lia).
    destruct (aread_ok w (src Np k)) as (v & _ & Nv); [ assumption | ]. rewrite Nv in Hv.
    rewrite (nth_error_nth _ _ 0%R Nv), (nth_error_nth _ _ 0%R Hv). reflexivity. }
  intros i Hi. rewrite !G by lia. rewrite src_lo' by exact Hi. rewrite (Nat.add_comm Np i), src_hi'. auto.
Qed.

Lemma coup_bins w z e base Np E0 :
  2 <= Np -> length w = 2 * Np -> length z = 4 * Np * Np -> increasing w -> (forall x, In x w -> (0 < x)%R) ->
  base + 2 * (Np + 1) <= length e ->
  exists e' z', swp_channel w z e (Z.of_nat base) Np true false E0 = Ok (e', z', E0) /\
    scattering_bins Np (fun i => nth (base + i) e' 0%R) (fun i => nth (2 * i) w 0%R) /\
    scattering_bins Np (fun i => nth (base + (Np + 1) + i) e' 0%R) (fun i => nth (2 * i + 1) w 0%R) /\
    length e' = length e /\ forall j, j < base \/ base + 2 * (Np + 1) <= j -> nth j e' 0%R = nth j e 0%R.
Proof.
  intros H2 Lw Lz Hs Hp Le. destruct (reordered_nth Np w z Lw Lz) as (w' & z' & Er & L1 & Hn).
  destruct (bb_spec w' e base Np true false H2 L1 Le) as (e' & E & L & V & O).
  exists e', z'. unfold swp_channel. rewrite look_ok_pos by exact Hp. cbn [obind]. rewrite Er. cbn [obind].
  change (Z.of_nat base) with (zn base). rewrite E. cbn [obind]. split; [ reflexivity | ].
  assert (Hinc : forall a b, a < b < 2 * Np -> (nth a w 0 < nth b w 0)%R) by (intros a b Hab; apply Hs; lia).
  assert (Hp' := nth_pos w Hp). rewrite Lw in Hp'.
  split; [ | split; [ | split; assumption ] ].
  - destruct (bins_from_bnd Np (fun i => nth (base + i) e' 0%R) (fun k => nth k w' 0%R)) as [Ha Hb].
    + exact H2. + intros i Hi. apply V, Hi.
    + intros a b Hab. rewrite (proj1 (Hn a ltac:(lia))), (proj1 (Hn b ltac:(lia))). apply Hinc. lia.
    + rewrite (proj1 (Hn 0 ltac:(lia))). apply Hp'. lia.
    + split; [ exact Ha | ]. intros i Hi. rewrite <- (proj1 (Hn i Hi)). apply Hb, Hi.
  - destruct (bins_from_bnd Np (fun i => nth (base + (Np + 1) + i) e' 0%R) (fun k => nth (Np + k) w' 0%R)) as [Ha Hb].
    + exact H2. + intros i Hi. apply V; [ exact Hi | reflexivity ].
    + intros a b Hab. rewrite (proj2 (Hn a ltac:(lia))), (proj2 (Hn b ltac:(lia))). apply Hinc. lia.
    + rewrite (proj2 (Hn 0 ltac:(lia))). apply Hp'. lia.
    + split; [ exact Ha | ]. intros i Hi. rewrite <- (proj2 (Hn i Hi)). apply Hb, Hi.
Qed.

Lemma coup_bins_3S1 w z e base Np E0 :
  3 <= Np -> length w = 2 * Np -> length z = 4 * Np * Np -> increasing w ->
  (nth 0 w 0 < 0)%R -> (0 < nth 1 w 0)%R ->
  base + 2 * (Np + 1) <= length e ->
  exists e' z', swp_channel w z e (Z.of_nat base) Np true true E0 = Ok (e', z', nth 0 w 0%R) /\
    deuteron_bins Np (fun i => nth (base + i) e' 0%R) (fun i => nth (2 * i) w 0%R) /\
    scattering_bins Np (fun i => nth (base + (Np + 1) + i) e' 0%R) (fun i => nth (2 * i + 1) w 0%R) /\
    length e' = length e /\ forall j, j < base \/ base + 2 * (Np + 1) <= j -> nth j e' 0%R = nth j e 0%R.
Proof.
  intros H3 Lw Lz Hs H0 H1 Le. destruct (reordered_nth Np w z Lw Lz) as (w' & z' & Er & L1 & Hn).
  destruct (bb_spec w' e base Np true true ltac:(lia) L1 Le) as (e' & E & L & V & O).
  assert (Hinc : forall a b, a < b < 2 * Np -> (nth a w 0 < nth b w 0)%R) by (intros a b Hab; apply Hs; lia).
  assert (Hp' : forall i, 1 <= i < 2 * Np -> (0 < nth i w 0)%R).
  { intros i Hi. destruct (Nat.eq_dec i 1) as [->|]; [ exact H1 | ].
    apply Rlt_trans with (nth 1 w 0%R); [ exact H1 | ]. apply Hinc. lia. }
  exists e', z'. unfold swp_channel. rewrite look_ok_3S1; [ | lia | exact H0 | rewrite Lw; exact Hp' ].
  cbn [obind]. rewrite Er. cbn [obind].
  change (Z.of_nat base) with (zn base). rewrite E. cbn [obind]. split; [ reflexivity | ].
  split; [ | split; [ | split; assumption ] ].
  - destruct (dbins_from_bnd Np (fun i => nth (base + i) e' 0%R) (fun k => nth k w' 0%R)) as (Ha & Hb & Hc & Hd).
    + exact H3. + intros i Hi. apply V, Hi.
    + intros a b Hab. rewrite (proj1 (Hn a ltac:(lia))), (proj1 (Hn b ltac:(lia))). apply Hinc. lia.
    + rewrite (proj1 (Hn 0 ltac:(lia))). exact H0.
    + rewrite (proj1 (Hn 1 ltac:(lia))). apply Hp'. lia.
    + split; [ rewrite Ha; exact (proj1 (Hn 0 ltac:(lia))) | ]. split; [ exact Hb | ]. split; [ exact Hc | ].
      intros i Hi. rewrite <- (proj1 (Hn i ltac:(lia))). apply Hd, Hi.
  - destruct (bins_from_bnd Np (fun i => nth (base + (Np + 1) + i) e' 0%R) (fun k => nth (Np + k) w' 0%R)) as [Ha Hb].
    + lia. + intros i Hi. apply V; [ exact Hi | reflexivity ].
    + intros a b Hab. rewrite (proj2 (Hn a ltac:(lia))), (proj2 (Hn b ltac:(lia))). apply Hinc. lia.
    + rewrite (proj2 (Hn 0 ltac:(lia))). exact H1.
    + split; [ exact Ha | ]. intros i Hi. rewrite <- (proj2 (Hn i Hi)). apply Hb, Hi.
Qed.

(* Np = 1 and Np = 2 *)
Lemma one_bin_UB (x y : R) z E0 : (0 < x)%R -> swp_channel [x] z [y; y] 0 1 false false E0 = UB.
Proof.
  intros Hx. unfold swp_channel. rewrite look_ok_pos; [ reflexivity | ]. intros a [<-|[]]. exact Hx.
Qed.

Lemma two_bins_wrong E0 :
  exists w e e', increasing w /\ length w = 2 /\ (nth 0 w 0 < 0)%R /\ (0 < nth 1 w 0)%R /\
    swp_channel w [] e 0 2 false true E0 = Ok (e', [], nth 0 w 0%R) /\
    (nth 2 e' 0 < nth 1 w 0)%R.
Proof.
  exists [(-2)%R; 1%R], [0%R; 0%R; 0%R], [(-2)%R; 0%R; (1 + 0.5 * (0.5 * (1 + -2) - 0))%R].
  split; [ | split; [ reflexivity | split; [ cbn; lra | split; [ cbn; lra | ] ] ] ].
  - intros a b Hab. cbn [length] in Hab. assert (a = 0 /\ b = 1) as [-> ->] by lia. cbn. lra.
  - split.
    + unfold swp_channel. rewrite look_ok_3S1; [ | cbn; lia | cbn; lra | ].
      * reflexivity.
      * intros i Hi. cbn [length] in Hi. assert (i = 1) as -> by lia. cbn. lra.
    + cbn. lra.
Qed.
