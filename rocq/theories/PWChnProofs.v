From Coq Require Import ZifyBool Permutation Sorted.
From Verif Require Import Common PWModel PWSpec PWProofs.
Ltac Zify.zify_post_hook ::= Z.div_mod_to_equations.

(* ---------- blocks and prefix sums ---------- *)
Section Blocks.
Context {A : Type}.
Implicit Type bs : list (list A).

Definition off bs (k : nat) : nat := length (concat (firstn k bs)).

Lemma off_0 bs : off bs 0 = 0%nat. Proof. reflexivity. Qed.

Lemma off_all bs : off bs (length bs) = length (concat bs).
Proof. unfold off. rewrite firstn_all. reflexivity. Qed.

Lemma off_app_l bs b k : (k <= length bs)%nat -> off (bs ++ b) k = off bs k.
Proof.
  intros H. unfold off. rewrite firstn_app. replace (k - length bs)%nat with 0%nat by lia.
  cbn. rewrite app_nil_r. reflexivity.
Qed.

Lemma off_S bs k d : (k < length bs)%nat -> off bs (S k) = (off bs k + length (nth k bs d))%nat.
Proof.
  revert k; induction bs as [|b bs IH]; intros k Hk; cbn in Hk; [ lia | ].
  destruct k as [|k].
  - unfold off. cbn. rewrite app_length. cbn. lia.
  - unfold off in *. change (firstn (S (S k)) (b :: bs)) with (b :: firstn (S k) bs).
    change (firstn (S k) (b :: bs)) with (b :: firstn k bs).
    cbn [concat nth]. rewrite !app_length, IH by lia. lia.
Qed.

Lemma off_le_total bs k : (off bs k <= length (concat bs))%nat.
Proof.
  unfold off. rewrite <- (firstn_skipn k bs) at 2. rewrite concat_app, app_length. lia.
Qed.

Lemma off_mono bs i j : (forall b, In b bs -> b <> []) -> (i < j <= length bs)%nat -> (off bs i < off bs j)%nat.
Proof.
  intros Hne. induction j as [|j IH]; [ lia | ]. intros H.
  rewrite (off_S bs j []) by lia.
  assert (Hn : nth j bs [] <> []) by (apply Hne, nth_In; lia).
  destruct (nth j bs []); [ congruence | ]. cbn.
  destruct (Nat.eq_dec i j) as [->|]; [ lia | ]. specialize (IH ltac:(lia)). lia.
Qed.

Lemma slice_block bs k d :
  (k < length bs)%nat ->
  firstn (off bs (S k) - off bs k) (skipn (off bs k) (concat bs)) = nth k bs d.
Proof.
  intros Hk. rewrite (off_S bs k d Hk).
  replace (off bs k + length (nth k bs d) - off bs k)%nat with (length (nth k bs d)) by lia.
  revert k Hk; induction bs as [|b bs IH]; intros k Hk; cbn in Hk; [ lia | ].
  destruct k as [|k].
  - cbn. rewrite firstn_app. replace (length b - length b)%nat with 0%nat by lia.
    rewrite firstn_all. cbn. apply app_nil_r.
  - unfold off in *. cbn [firstn concat nth]. rewrite app_length.
    rewrite skipn_app.
    replace (length b + length (concat (firstn k bs)) - length b)%nat
       with (length (concat (firstn k bs))) by lia.
    rewrite skipn_all2 by lia. cbn [app]. apply IH. lia.
Qed.
End Blocks.

Definition blocks (Jmax : Z) (iso : bool) (keys : list (Z * Z)) : list (list pw) :=
  map (fun k => chn_states Jmax iso (fst k) (snd k)) keys.

Lemma run_fold Jmax iso keys :
  (forall k, In k keys -> chn_states Jmax iso (fst k) (snd k) <> []) ->
  fold_left (add_channel Jmax iso) keys (mkacc [] []) =
  mkacc (concat (blocks Jmax iso keys))
        (map (fun k => Z.of_nat (off (blocks Jmax iso keys) k)) (seq 0 (length keys))).
Proof.
  induction keys as [|k keys IH] using rev_ind; intros Hne; [ reflexivity | ].
  rewrite fold_left_app, IH by (intros k' Hk'; apply Hne, in_or_app; left; exact Hk').
  cbn [fold_left]. unfold add_channel. cbn [acc_states acc_chn].
  unfold blocks. rewrite map_app, concat_app. cbn [map concat]. rewrite app_nil_r.
  f_equal.
  replace (Z.of_nat (length (chn_states Jmax iso (fst k) (snd k))) =? 0) with false.
  2:{ symmetry. apply Z.eqb_neq. specialize (Hne k ltac:(apply in_or_app; right; left; reflexivity)).
      destruct (chn_states Jmax iso (fst k) (snd k)); [ congruence | ]. cbn. lia. }
  rewrite app_length. cbn [length]. rewrite Nat.add_1_r, seq_S, map_app. cbn [map].
  f_equal.
  - apply map_ext_in. intros j Hj. apply in_seq in Hj.
    rewrite off_app_l; [ reflexivity | rewrite map_length; lia ].
  - f_equal. f_equal.
    rewrite off_app_l by (rewrite map_length; lia). cbn [plus].
    replace (length keys) with (length (map (fun k0 => chn_states Jmax iso (fst k0) (snd k0)) keys))
      by apply map_length.
    rewrite off_all. reflexivity.
Qed.

(* ---------- the channel keys ---------- *)
Definition key_of (i : nat) : Z * Z := (1 + 2 * (Z.of_nat i / 2), Z.of_nat i mod 2).

Lemma chn_keys_eq m : 0 <= m ->
  chn_keys (2 * m + 1) = map key_of (seq 0 (2 * (Z.to_nat m + 1))).
Proof.
  intros Hm. unfold chn_keys, for_range.
  replace (Z.to_nat ((2 * m + 1 + 1 - 1 + 2 - 1) / 2)) with (Z.to_nat m + 1)%nat by lia.
  change (Z.to_nat ((2 - 0 + 1 - 1) / 1)) with 2%nat.
  generalize (Z.to_nat m + 1)%nat as n. clear m Hm.
  induction n as [|n IH]; [ reflexivity | ].
  rewrite (seq_S n 0), map_app, flat_map_app, IH.
  replace (2 * S n)%nat with (S (S (2 * n)))%nat by lia.
  rewrite (seq_S (S (2 * n)) 0), (seq_S (2 * n) 0), !map_app. cbn [map flat_map seq]. rewrite <- app_assoc. cbn [app].
  f_equal. unfold key_of.
  replace (Z.of_nat (0 + 2 * n) / 2) with (Z.of_nat n) by lia.
  replace (Z.of_nat (0 + S (2 * n)) / 2) with (Z.of_nat n) by lia.
  replace (Z.of_nat (0 + 2 * n) mod 2) with 0 by lia.
  replace (Z.of_nat (0 + S (2 * n)) mod 2) with 1 by lia.
  reflexivity.
Qed.

Lemma in_chn_keys mx tJ pr : In (tJ, pr) (chn_keys mx) <-> (1 <= tJ <= mx /\ Z.Odd tJ /\ (pr = 0 \/ pr = 1)).
Proof.
  unfold chn_keys. rewrite in_flat_map. split.
  - intros (t & Ht & H). apply in_map_iff in H. destruct H as (p & Hp & Hin).
    injection Hp; intros; subst. apply in_for_range in Ht; [ | lia ]. apply in_for_range1 in Hin.
    destruct Ht as [Ht [q Hq]]. split; [ lia | ]. split; [ exists q; lia | lia ].
  - intros (H1 & [q Hq] & Hp). exists tJ. split.
    + apply in_for_range; [ lia | ]. split; [ lia | exists q; lia ].
    + apply in_map_iff. exists pr. split; [ reflexivity | apply in_for_range1; lia ].
Qed.

Lemma NoDup_chn_keys mx : NoDup (chn_keys mx).
Proof.
  unfold chn_keys. apply NoDup_flat_map; [ apply NoDup_for_range; lia | | ].
  - intros x _. apply FinFun.Injective_map_NoDup; [ intros a b H; congruence | apply NoDup_for_range; lia ].
  - intros x y b _ _ Hx Hy. apply in_map_iff in Hx, Hy.
    destruct Hx as (? & <- & _). destruct Hy as (? & H & _). congruence.
Qed.

Lemma chn_states_nonempty Jmax iso tJ pr :
  0 <= Jmax -> 0 < tJ -> Z.Odd tJ -> pr = 0 \/ pr = 1 -> chn_states Jmax iso tJ pr <> [].
Proof.
  intros HJ Hp Ho Hpr.
  destruct Ho as [q Hq].
  assert (exists l, 0 <= l /\ (tJ = 2 * l + 1 \/ tJ = 2 * l - 1) /\ l mod 2 = pr) as (l & Hl0 & Hl & Hlp).
  { destruct (Z.eq_dec (q mod 2) pr) as [He|Hn]; [ exists q; lia | exists (q + 1); lia ]. }
  assert (Hin : In (mkpw 0 0 0 1 l tJ tJ 1 (1 - 2 * pr)) (chn_states Jmax iso tJ pr)).
  { apply in_chn_states; [ lia | exists q; lia | assumption | ].
    pws. split; [ | lia ]. constructor; pws; unfold couples.
    - split; [ lia | split; [ lia | split; [ lia | exists 1; lia ] ] ].
    - split; [ lia | split; [ lia | split; [ lia | exists 2; lia ] ] ].
    - split; [ lia | split; [ lia | split; [ lia | exists 0; lia ] ] ].
    - split; [ lia | split; [ lia | split; [ lia | ] ] ].
      destruct Hl; [ exists (2 * l + 1) | exists (2 * l) ]; lia.
    - split; [ lia | split; [ lia | split; [ lia | exists tJ; lia ] ] ].
    - split; [ lia | split; [ lia | split; [ lia | exists 2; lia ] ] ].
    - exists 0; lia.
    - change (0 + l) with l. rewrite Zmod_even in Hlp. destruct (Z.even l); lia. }
  intros E. rewrite E in Hin. exact Hin.
Qed.

Lemma keys_nonempty Jmax iso mx k :
  0 <= Jmax -> In k (chn_keys mx) -> chn_states Jmax iso (fst k) (snd k) <> [].
Proof.
  intros HJ Hk. destruct k as [tJ pr]. apply in_chn_keys in Hk. cbn.
  apply chn_states_nonempty; try lia; tauto.
Qed.

(* ---------- the complete construction ---------- *)
Definition bsof Jmax mx iso := blocks Jmax iso (chn_keys mx).

Lemma run_channels_eq Jmax mx iso : 0 <= Jmax ->
  run_channels Jmax mx iso =
  mkacc (concat (bsof Jmax mx iso))
        (map (fun k => Z.of_nat (off (bsof Jmax mx iso) k)) (seq 0 (length (chn_keys mx)))).
Proof. intros HJ. apply run_fold. intros k Hk. apply (keys_nonempty Jmax iso mx k HJ Hk). Qed.

Lemma length_bsof Jmax mx iso : length (bsof Jmax mx iso) = length (chn_keys mx).
Proof. apply map_length. Qed.

Definition tables Jmax mx iso : statespace :=
  mkss (concat (bsof Jmax mx iso))
       (map (fun k => Z.of_nat (off (bsof Jmax mx iso) k)) (seq 0 (S (length (chn_keys mx)))))
       (Z.of_nat (length (chn_keys mx))).

Lemma final_tables_eq Jmax mx iso : 0 <= Jmax ->
  final_tables (run_channels Jmax mx iso) = tables Jmax mx iso.
Proof.
  intros HJ. rewrite run_channels_eq by exact HJ. unfold final_tables, tables. cbn [acc_states acc_chn].
  rewrite map_length, seq_length. f_equal.
  rewrite seq_S, map_app. cbn [map plus]. f_equal. f_equal. f_equal.
  rewrite <- (length_bsof Jmax mx iso), off_all. reflexivity.
Qed.

Lemma scan_fold_ok (f : Z -> Z -> outcome Z) l :
  (forall c b, exists b', f c b = Ok b') ->
  forall b, exists b', fold_left (fun r c => do best <- r; f c best) l (Ok b) = Ok b'.
Proof.
  intros Hf. induction l as [|c l IH]; intros b; [ exists b; reflexivity | ].
  cbn [fold_left obind]. destruct (Hf c b) as [b' ->]. apply IH.
Qed.

Lemma largest_scan_g_ok g v : exists b, largest_scan_g g v = Ok b.
Proof.
  unfold largest_scan_g.
  apply (scan_fold_ok (fun c best => do lo <- aget_g g v c; do hi <- aget_g g v (c + 1);
      Ok (if (hi - lo >? best) then hi - lo else best))).
  intros c b.
  assert (Hg : forall i, exists x, aget_g g v i = Ok x).
  { intros i. unfold aget_g, aget. destruct (i <? 0); [ eexists; reflexivity | ].
    destruct (nth_error v (Z.to_nat i)); eexists; reflexivity. }
  destruct (Hg c) as [x ->]. destruct (Hg (c + 1)) as [y ->]. cbn. eexists; reflexivity.
Qed.

Lemma construct_g_eq g Jmax mx iso : 0 <= Jmax ->
  construct_symmetric_pw_states_g g Jmax mx iso = Ok (tables Jmax mx iso).
Proof.
  intros HJ. unfold construct_symmetric_pw_states_g.
  replace (Jmax <? 0) with false by lia.
  destruct (largest_scan_g_ok g (acc_chn (run_channels Jmax mx iso))) as [b ->].
  cbn [obind]. rewrite final_tables_eq by exact HJ. reflexivity.
Qed.

Lemma construct_g_inv g Jmax mx iso ss :
  construct_symmetric_pw_states_g g Jmax mx iso = Ok ss -> 0 <= Jmax /\ ss = tables Jmax mx iso.
Proof.
  intros H. assert (HJ : 0 <= Jmax).
  { unfold construct_symmetric_pw_states_g in H. destruct (Jmax <? 0) eqn:E; [ discriminate | lia ]. }
  split; [ exact HJ | ]. rewrite construct_g_eq in H by exact HJ. congruence.
Qed.

(* strict semantics: the scan runs off the end *)
Lemma scan_UB_sticky (f : Z -> Z -> outcome Z) l : fold_left (fun r c => do best <- r; f c best) l UB = UB.
Proof. induction l; [ reflexivity | exact IHl ]. Qed.

Lemma largest_scan_UB v : v <> [] -> largest_scan v = UB.
Proof.
  intros Hv. unfold largest_scan.
  set (F := fun c best => do lo <- aget v c; do hi <- aget v (c + 1);
      Ok (if (hi - lo >? best) then hi - lo else best)).
  change (fold_left (fun r c => do best <- r; F c best) (for_range 0 (Z.of_nat (length v)) 1) (Ok 0) = UB).
  assert (exists n, length v = S n) as [n Hn] by (destruct v; [ congruence | eexists; reflexivity ]).
  unfold for_range. replace (Z.to_nat ((Z.of_nat (length v) - 0 + 1 - 1) / 1)) with (S n)%nat by lia.
  rewrite seq_S, map_app, fold_left_app. cbn [map fold_left].
  assert (Hin : forall l b, (forall c, In c l -> 0 <= c < Z.of_nat n) ->
     exists b', fold_left (fun r c => do best <- r; F c best) l (Ok b) = Ok b').
  { induction l as [|c l IH]; intros b Hl; [ eexists; reflexivity | ].
    cbn [fold_left obind].
    assert (Hc : 0 <= c < Z.of_nat n) by (apply Hl; left; reflexivity).
    assert (Hg : forall i, 0 <= i <= Z.of_nat n -> exists x, aget v i = Ok x).
    { intros i Hi. unfold aget. replace (i <? 0) with false by lia.
      destruct (nth_error v (Z.to_nat i)) eqn:E; [ eexists; reflexivity | ].
      apply nth_error_None in E. lia. }
    unfold F at 2. destruct (Hg c ltac:(lia)) as [x ->]. destruct (Hg (c + 1) ltac:(lia)) as [y ->].
    cbn [obind]. apply IH. intros c' Hc'. apply Hl. right; exact Hc'. }
  destruct (Hin (map (fun k => 0 + 1 * Z.of_nat k) (seq 0 n)) 0) as [b ->].
  { intros c Hc. apply in_map_iff in Hc. destruct Hc as (k & <- & Hk). apply in_seq in Hk. lia. }
  cbn [obind]. unfold F.
  replace (aget v (0 + 1 * Z.of_nat (0 + n))) with (aget v (Z.of_nat n)) by (f_equal; lia).
  destruct (aget v (Z.of_nat n)) eqn:E1; cbn [obind].
  - assert (E2 : aget v (0 + 1 * Z.of_nat (0 + n) + 1) = UB).
    { unfold aget. destruct (_ <? 0); [ reflexivity | ].
      replace (nth_error v _) with (@None Z); [ reflexivity | ].
      symmetry. apply nth_error_None. lia. }
    rewrite E2. reflexivity.
  - unfold aget in E1. destruct (_ <? 0); [ discriminate | ]. destruct (nth_error _ _); discriminate.
  - unfold aget in E1. destruct (_ <? 0); [ discriminate | ]. destruct (nth_error _ _); discriminate.
  - reflexivity.
Qed.

Lemma construct_strict_UB Jmax mx iso : 0 <= Jmax -> 1 <= mx ->
  construct_symmetric_pw_states Jmax mx iso = UB.
Proof.
  intros HJ Hmx. unfold construct_symmetric_pw_states. replace (Jmax <? 0) with false by lia.
  rewrite run_channels_eq by exact HJ. cbn [acc_chn].
  rewrite largest_scan_UB; [ reflexivity | ].
  assert (Hk : In (1, 0) (chn_keys mx)).
  { apply in_chn_keys. split; [ lia | split; [ exists 0; lia | lia ] ]. }
  destruct (chn_keys mx); [ destruct Hk | ]. cbn. discriminate.
Qed.

(* ---------- C07/C08/C09 ---------- *)
Lemma in_tables Jmax mx iso s :
  In s (ss_states (tables Jmax mx iso)) <-> (physical s /\ in_model_space Jmax mx iso s).
Proof.
  cbn [tables ss_states]. unfold bsof, blocks. rewrite <- flat_map_concat_map, in_flat_map. split.
  - intros ([tJ pr] & Hk & Hs). cbn [fst snd] in Hs. apply in_chn_keys in Hk.
    destruct Hk as (H1 & H2 & H3). apply in_chn_states in Hs; try tauto; try lia.
    destruct Hs as (Hph & (HJ & HT) & HJ3 & HP). split; [ exact Hph | ].
    constructor; [ exact HJ | lia | exact HT ].
  - intros (Hph & [HJ HJ3 HT]).
    assert (Hodd : 1 <= two_J_3N s /\ Z.Odd (two_J_3N s)).
    { destruct Hph as [_ _ _ Hj HJ' _ _ _]. unfold couples in *.
      destruct Hj as (? & _ & ? & [k Hk]). destruct HJ' as (? & ? & ? & [k' Hk']).
      assert (Z.Odd (two_J_3N s)) by (exists (k' - J_2N s - k + L_1N s); lia).
      split; [ | assumption ]. destruct H4 as [z Hz]. lia. }
    pose proof (ph_P s Hph) as HP.
    exists (two_J_3N s, if P_3N s =? 1 then 0 else 1). split.
    + apply in_chn_keys. split; [ lia | split; [ tauto | destruct (_ =? 1); lia ] ].
    + cbn [fst snd]. apply in_chn_states; [ lia | tauto | destruct (_ =? 1); lia | ].
      split; [ exact Hph | split; [ split; assumption | split; [ reflexivity | ] ] ].
      destruct (Z.even (L_2N s + L_1N s)); rewrite HP; reflexivity.
Qed.

Lemma NoDup_tables Jmax mx iso : NoDup (ss_states (tables Jmax mx iso)).
Proof.
  cbn [tables ss_states]. unfold bsof, blocks. rewrite <- flat_map_concat_map.
  apply NoDup_flat_map; [ apply NoDup_chn_keys | | ].
  - intros k _. apply NoDup_chn_states.
  - intros [t1 p1] [t2 p2] s H1 H2 Hs1 Hs2. cbn [fst snd] in *. apply in_chn_keys in H1, H2.
    apply in_chn_states in Hs1; try tauto; try lia. apply in_chn_states in Hs2; try tauto; try lia.
    destruct Hs1 as (_ & _ & E1 & E2). destruct Hs2 as (_ & _ & E3 & E4). f_equal; lia.
Qed.

(* ---------- C10 ---------- *)
Lemma aget_table Jmax mx iso c :
  0 <= c <= Z.of_nat (length (chn_keys mx)) ->
  aget (ss_chn_idx (tables Jmax mx iso)) c = Ok (Z.of_nat (off (bsof Jmax mx iso) (Z.to_nat c))).
Proof.
  intros Hc. unfold aget. replace (c <? 0) with false by lia. cbn [tables ss_chn_idx].
  rewrite nth_error_map.
  assert (E : nth_error (seq 0 (S (length (chn_keys mx)))) (Z.to_nat c) = Some (Z.to_nat c)).
  { rewrite (nth_error_nth' _ 0%nat) by (rewrite seq_length; lia). rewrite seq_nth by lia. reflexivity. }
  rewrite E. reflexivity.
Qed.

Lemma slice_tables Jmax mx iso c :
  0 <= c < Z.of_nat (length (chn_keys mx)) ->
  channel_slice (tables Jmax mx iso) c = Ok (nth (Z.to_nat c) (bsof Jmax mx iso) []).
Proof.
  intros Hc. unfold channel_slice. rewrite !aget_table by lia. cbn [obind].
  f_equal. replace (Z.to_nat (c + 1)) with (S (Z.to_nat c)) by lia.
  rewrite <- (slice_block (bsof Jmax mx iso) (Z.to_nat c) []) by (rewrite length_bsof; lia).
  cbn [tables ss_states]. rewrite Nat2Z.id.
  f_equal.
  assert ((off (bsof Jmax mx iso) (Z.to_nat c) <= off (bsof Jmax mx iso) (S (Z.to_nat c)))%nat).
  { rewrite (off_S _ _ []) by (rewrite length_bsof; lia). lia. }
  lia.
Qed.

Lemma length_keys_odd mx : 1 <= mx -> Z.Odd mx -> Z.of_nat (length (chn_keys mx)) = mx + 1.
Proof.
  intros H [m Hm]. subst mx. rewrite chn_keys_eq, map_length, seq_length by lia. lia.
Qed.

Lemma nth_keys_odd mx c d : 1 <= mx -> Z.Odd mx -> 0 <= c < mx + 1 ->
  nth (Z.to_nat c) (chn_keys mx) d = (1 + 2 * (c / 2), c mod 2).
Proof.
  intros H [m Hm] Hc. subst mx. rewrite chn_keys_eq by lia.
  rewrite (nth_indep _ d (key_of 0)) by (rewrite map_length, seq_length; lia).
  rewrite map_nth, seq_nth by lia. unfold key_of. cbn [plus]. rewrite Z2Nat.id by lia. reflexivity.
Qed.

Lemma slice_spec Jmax mx iso c :
  0 <= Jmax -> 1 <= mx -> Z.Odd mx -> 0 <= c < mx + 1 ->
  exists l, channel_slice (tables Jmax mx iso) c = Ok l /\
    l = chn_states Jmax iso (1 + 2 * (c / 2)) (c mod 2) /\ l <> [] /\
    (forall s, In s l <-> In s (ss_states (tables Jmax mx iso)) /\ chn_of s = nth_chn c).
Proof.
  intros HJ Hmx Hodd Hc. pose proof (length_keys_odd mx Hmx Hodd) as Hlen.
  rewrite slice_tables by lia. eexists. split; [ reflexivity | ].
  assert (Hn : nth (Z.to_nat c) (bsof Jmax mx iso) [] = chn_states Jmax iso (1 + 2 * (c / 2)) (c mod 2)).
  { unfold bsof, blocks.
    rewrite (nth_indep _ [] (chn_states Jmax iso (fst (0,0)) (snd (0,0)))) by (rewrite map_length; lia).
    rewrite (map_nth (fun k => chn_states Jmax iso (fst k) (snd k))).
    rewrite (nth_keys_odd mx c (0,0)) by (assumption || lia). reflexivity. }
  rewrite Hn. split; [ reflexivity | ].
  assert (Hp : c mod 2 = 0 \/ c mod 2 = 1) by lia.
  assert (Ho : Z.Odd (1 + 2 * (c / 2))) by (exists (c / 2); lia).
  split; [ apply chn_states_nonempty; try assumption; lia | ].
  intros s. rewrite in_tables, in_chn_states by (assumption || lia).
  unfold chn_of, nth_chn.
  assert (HP : (if Z.even c then 1 else -1) = 1 - 2 * (c mod 2))
    by (rewrite Zmod_even; destruct (Z.even c); reflexivity).
  rewrite HP. split.
  - intros (Hph & (H1 & H2) & H3 & H4). split; [ split; [ exact Hph | constructor; [ assumption | destruct Hodd; lia | assumption ] ] | congruence ].
  - intros ((Hph & [H1 H2 H3]) & H4). injection H4; intros. split; [ exact Hph | ].
    split; [ split; assumption | split; assumption ].
Qed.

Lemma concat_slices Jmax mx iso : ss_states (tables Jmax mx iso) = concat (bsof Jmax mx iso).
Proof. reflexivity. Qed.

(* ---------- C12 ---------- *)
Lemma is_deuteron_b_spec s : is_deuteron_b s = true <-> is_deuteron s.
Proof. unfold is_deuteron_b, is_deuteron. lia. Qed.

Lemma in_deuteron_from i0 l i :
  In i (deuteron_indices_from i0 l) <->
  (i0 <= i < i0 + Z.of_nat (length l) /\
   exists s, nth_error l (Z.to_nat (i - i0)) = Some s /\ is_deuteron s).
Proof.
  revert i0; induction l as [|s l IH]; intros i0; cbn [deuteron_indices_from length].
  - split; [ intros [] | lia ].
  - rewrite in_app_iff, IH. split.
    + intros [H|[H1 (s' & H2 & H3)]].
      * destruct (is_deuteron_b s) eqn:E; [ | destruct H ]. destruct H as [<-|[]].
        split; [ lia | ]. exists s. replace (Z.to_nat (i0 - i0)) with 0%nat by lia.
        split; [ reflexivity | apply is_deuteron_b_spec; exact E ].
      * split; [ lia | ]. exists s'. replace (Z.to_nat (i - i0)) with (S (Z.to_nat (i - (i0 + 1)))) by lia.
        split; assumption.
    + intros (H1 & s' & H2 & H3). destruct (Z.eq_dec i i0) as [->|Hne].
      * left. replace (Z.to_nat (i0 - i0)) with 0%nat in H2 by lia. cbn in H2.
        injection H2; intros; subst. apply is_deuteron_b_spec in H3. rewrite H3. left; reflexivity.
      * right. split; [ lia | ]. exists s'. replace (Z.to_nat (i - i0)) with (S (Z.to_nat (i - (i0 + 1)))) in H2 by lia.
        split; assumption.
Qed.

Lemma sorted_deuteron_from i0 l : StronglySorted Z.lt (deuteron_indices_from i0 l).
Proof.
  revert i0; induction l as [|s l IH]; intros i0; cbn [deuteron_indices_from]; [ constructor | ].
  destruct (is_deuteron_b s); cbn [app]; [ | apply IH ].
  constructor; [ apply IH | ]. apply Forall_forall. intros i Hi.
  apply in_deuteron_from in Hi. lia.
Qed.

Lemma length_deuteron_from i0 l :
  length (deuteron_indices_from i0 l) = length (filter is_deuteron_b l).
Proof.
  revert i0; induction l as [|s l IH]; intros i0; cbn [deuteron_indices_from filter]; [ reflexivity | ].
  rewrite app_length, IH. destruct (is_deuteron_b s); reflexivity.
Qed.

Definition dstate (tJ pr tj : Z) : pw :=
  mkpw 0 1 1 0 (let l := (tj - 1) / 2 in if l mod 2 =? pr then l else l + 1) tj tJ 1 (1 - 2 * pr).

Lemma deuteron_states_iff Jmax iso tJ pr s :
  1 <= Jmax -> 0 < tJ -> Z.Odd tJ -> pr = 0 \/ pr = 1 ->
  In s (filter is_deuteron_b (chn_states Jmax iso tJ pr)) <->
  In s (map (dstate tJ pr) (for_range (Z.abs (tJ - 2)) (tJ + 2 + 1) 2)).
Proof.
  intros HJ Hp Ho Hpr. rewrite filter_In, is_deuteron_b_spec, in_chn_states by assumption.
  rewrite in_map_iff. destruct Ho as [q Hq]. unfold is_deuteron. split.
  - intros ((Hph & _ & H3 & HP) & HL & HS & HJ1 & HT).
    destruct s as [L S J T l tj t3 tT P]. pws. subst L S J T t3 P.
    destruct Hph as [_ _ _ Hj HJ3 HT3 _ HP']; pws. unfold couples in *.
    destruct Hj as (Hl & _ & Hj & [k Hk]). destruct HJ3 as (_ & Htj & HJ3 & [k' Hk']).
    destruct HT3 as (_ & _ & HT3 & [k'' Hk'']).
    assert (Htv : tj = 2 * l + 1 \/ tj = 2 * l - 1) by lia.
    exists tj. split.
    + unfold dstate. f_equal; [ | lia ].
      change (0 + l) with l in HP'.
      assert (Hlm : l mod 2 = pr) by (rewrite Zmod_even; destruct (Z.even l); lia).
      destruct ((tj - 1) / 2 mod 2 =? pr) eqn:E; lia.
    + apply in_for_range; [ lia | ]. split; [ lia | ].
      destruct (Z.abs_spec (tJ - 2)) as [[? Ha]|[? Ha]]; rewrite Ha in *;
      [ exists (k' - tJ) | exists (k' - 2) ]; lia.
  - intros (tj & <- & Hin). apply in_for_range in Hin; [ | lia ]. destruct Hin as [Hr [k Hk]].
    unfold dstate; pws.
    assert (Hodd : exists z, tj = 2 * z + 1 /\ 0 <= z).
    { destruct (Z.abs_spec (tJ - 2)) as [[? Ha]|[? Ha]]; rewrite Ha in *;
      [ exists (k + q - 1) | exists (k - q) ]; lia. }
    destruct Hodd as (z & -> & Hz).
    replace ((2 * z + 1 - 1) / 2) with z by lia.
    set (l := if z mod 2 =? pr then z else z + 1).
    assert (Hl : (l = z \/ l = z + 1) /\ l mod 2 = pr) by (subst l; destruct (z mod 2 =? pr) eqn:E; lia).
    split; [ split; [ | split; [ split; [ lia | lia ] | lia ] ] | lia ].
    constructor; pws; unfold couples.
    + split; [ lia | split; [ lia | split; [ lia | exists 2; lia ] ] ].
    + split; [ lia | split; [ lia | split; [ lia | exists 1; lia ] ] ].
    + split; [ lia | split; [ lia | split; [ lia | exists 2; lia ] ] ].
    + split; [ lia | split; [ lia | split; [ lia | exists (l + z + 1); lia ] ] ].
    + split; [ lia | split; [ lia | split; [ lia | exists (1 + z + q + 1); lia ] ] ].
    + split; [ lia | split; [ lia | split; [ lia | exists 1; lia ] ] ].
    + exists 0; lia.
    + change (0 + l) with l. destruct Hl as [_ Hl]. rewrite Zmod_even in Hl. destruct (Z.even l); lia.
Qed.

Lemma deuteron_count Jmax iso tJ pr :
  1 <= Jmax -> 0 < tJ -> Z.Odd tJ -> pr = 0 \/ pr = 1 ->
  length (deuteron_indices (chn_states Jmax iso tJ pr)) = if tJ =? 1 then 2%nat else 3%nat.
Proof.
  intros HJ Hp Ho Hpr. unfold deuteron_indices. rewrite length_deuteron_from.
  assert (HP : Permutation (filter is_deuteron_b (chn_states Jmax iso tJ pr))
     (map (dstate tJ pr) (for_range (Z.abs (tJ - 2)) (tJ + 2 + 1) 2))).
  { apply NoDup_Permutation.
    - apply NoDup_filter, NoDup_chn_states.
    - apply FinFun.Injective_map_NoDup; [ intros a b H; injection H; intros; assumption | apply NoDup_for_range; lia ].
    - intros s. apply deuteron_states_iff; assumption. }
  rewrite (Permutation_length HP), map_length. unfold for_range. rewrite map_length, seq_length.
  destruct Ho as [q Hq]. destruct (tJ =? 1) eqn:E; lia.
Qed.

Lemma find_deuteron_gen (f : Z -> list Z) (g : Z -> outcome (list pw)) n acc :
  (forall c, 0 <= c < Z.of_nat n -> exists s, g c = Ok s /\ deuteron_indices s = f c) ->
  fold_left (fun r c => do acc <- r; do s <- g c; Ok (acc ++ [deuteron_indices s]))
    (map (fun k => 0 + 1 * Z.of_nat k) (seq 0 n)) (Ok acc) = Ok (acc ++ map (fun k => f (Z.of_nat k)) (seq 0 n)).
Proof.
  induction n as [|n IH]; intros Hg; [ cbn; rewrite app_nil_r; reflexivity | ].
  rewrite seq_S, !map_app, fold_left_app, IH by (intros c Hc; apply Hg; lia).
  cbn [map fold_left obind plus].
  destruct (Hg (Z.of_nat n) ltac:(lia)) as (s & Hs & Hf).
  replace (0 + 1 * Z.of_nat n) with (Z.of_nat n) by lia. rewrite Hs. cbn [obind].
  rewrite Hf, app_assoc. reflexivity.
Qed.

Lemma find_deuteron_tables Jmax mx iso :
  0 <= Jmax -> 1 <= mx -> Z.Odd mx ->
  find_deuteron_channels (tables Jmax mx iso) =
  Ok (map (fun c => deuteron_indices (chn_states Jmax iso (1 + 2 * (Z.of_nat c / 2)) (Z.of_nat c mod 2)))
          (seq 0 (Z.to_nat (mx + 1)))).
Proof.
  intros HJ Hmx Ho. unfold find_deuteron_channels. cbn [tables ss_N_chn].
  rewrite length_keys_odd by assumption. unfold for_range.
  replace (Z.to_nat ((mx + 1 - 0 + 1 - 1) / 1)) with (Z.to_nat (mx + 1)) by lia.
  rewrite (find_deuteron_gen (fun c => deuteron_indices (chn_states Jmax iso (1 + 2 * (c / 2)) (c mod 2)))).
  - reflexivity.
  - intros c Hc. destruct (slice_spec Jmax mx iso c) as (l & Hl & Hl' & _); try assumption; try lia.
    exists l. split; [ exact Hl | congruence ].
Qed.

(* ---------- C13 ---------- *)
Definition mat_id (tensor iso : bool) (s : pw) : bool * outcome Z :=
  let cpl := coupled_matrix tensor iso s s in
  (cpl, unique_2N_idx tensor iso cpl (L_2N s) (S_2N s) (J_2N s) (T_2N s)).

Lemma phys_cases s : physical s ->
  0 <= S_2N s <= 1 /\ 0 <= T_2N s <= 1 /\ 0 <= L_2N s /\ 0 <= J_2N s /\
  Z.abs (L_2N s - S_2N s) <= J_2N s <= L_2N s + S_2N s /\ Z.odd (L_2N s + S_2N s + T_2N s) = true.
Proof.
  intros [HS HT HJ _ _ _ Hp _]. unfold couples in *. apply Z.odd_spec in Hp.
  repeat split; try lia; try exact Hp.
Qed.

Lemma odd_mod z : Z.odd z = true <-> z mod 2 = 1.
Proof. rewrite Zmod_odd. destruct (Z.odd z); lia. Qed.

Definition is_coup (iso : bool) (s : pw) : bool :=
  ((S_2N s =? 1) && negb (L_2N s =? J_2N s) && negb (J_2N s =? 0)) || (iso && (S_2N s =? 0) && (J_2N s =? 0)).

Lemma mat_id_tensor iso s : physical s ->
  mat_id true iso s =
  if is_coup iso s then (true, Ok (J_2N s - (if iso then (if (S_2N s =? 0) then J_2N s else 0) else 1)))
  else (false, Ok (2 * J_2N s + S_2N s - (if iso then 1 else 0))).
Proof.
  intros Hr. apply phys_cases in Hr. destruct s as [L S J T l tj t3 tT P]. pws. rewrite odd_mod in Hr.
  unfold mat_id, coupled_matrix, coupled_via_L_2N, coupled_via_T_3N, unique_2N_idx, is_coup; pws.
  rewrite !Z.eqb_refl. cbn [negb orb andb].
  assert (S = 0 \/ S = 1) as [-> | ->] by lia; cbn [Z.eqb Pos.eqb andb orb negb].
  - assert (L = J) as -> by lia. rewrite Z.eqb_refl. cbn [negb andb orb].
    destruct (J =? 0) eqn:E; cbn [andb].
    + destruct iso; cbn [andb]; [ | reflexivity ].
      replace (T =? 1) with true by lia. f_equal. f_equal. lia.
    + destruct iso; reflexivity.
  - replace ((J =? 0) && (L =? 0) && iso) with ((J =? 0) && (L =? 0) && iso) by reflexivity.
    destruct iso; cbn [andb]; rewrite ?Bool.orb_false_r;
    destruct (L =? J) eqn:E1; destruct (J =? 0) eqn:E2; cbn [negb andb orb]; try reflexivity.
    all: do 2 f_equal; lia.
Qed.

Lemma pair_ok_inj (b b' : bool) (x y : Z) : (b, Ok x) = (b', Ok y) -> x = y.
Proof. intros H; congruence. Qed.

Lemma unique_inj_tensor iso r c : physical r -> physical c ->
  (mat_id true iso r = mat_id true iso c <-> same_2N_channel true r c).
Proof.
  intros Hr Hc. rewrite !mat_id_tensor by assumption. apply phys_cases in Hr, Hc.
  destruct r as [L S J T l tj t3 tT P]. destruct c as [L' S' J' T' l' tj' t3' tT' P'].
  unfold same_2N_channel, is_coup; pws. rewrite !odd_mod in *.
  assert (HE : (Z.Even (L + L')) <-> (L + L') mod 2 = 0).
  { rewrite <- Z.even_spec. rewrite Zmod_even. destruct (Z.even (L + L')); lia. }
  rewrite HE. split.
  - destruct ((S =? 1) && negb (L =? J) && negb (J =? 0) || iso && (S =? 0) && (J =? 0)) eqn:E1;
    destruct ((S' =? 1) && negb (L' =? J') && negb (J' =? 0) || iso && (S' =? 0) && (J' =? 0)) eqn:E2;
    intros H; try discriminate H; apply pair_ok_inj in H.
    + assert (HS : S = S' /\ J = J')
        by (destruct iso; cbn [andb] in *; [ destruct (S =? 0) eqn:E3; destruct (S' =? 0) eqn:E4 | ]; lia).
      destruct HS as [<- <-]. clear H. split; [ reflexivity | split; [ reflexivity | ] ].
      assert (S = 0 \/ S = 1) as [-> | ->] by lia; destruct iso; cbn [andb orb Z.eqb Pos.eqb] in *;
        (split; [ | right; split; [ reflexivity | ] ]); lia.
    + assert (HS : S = S' /\ J = J') by (destruct iso; lia).
      destruct HS as [<- <-]. clear H. split; [ reflexivity | split; [ reflexivity | ] ].
      assert (S = 0 \/ S = 1) as [-> | ->] by lia; destruct iso; cbn [andb orb Z.eqb Pos.eqb] in *;
        (split; [ | right; split; [ reflexivity | ] ]); lia.
  - intros (-> & -> & -> & H).
    replace (negb (L =? J')) with (negb (L' =? J')) by lia. reflexivity.
Qed.

Lemma unique_range_tensor iso Jmax s : physical s -> J_2N s <= Jmax ->
  exists i, snd (mat_id true iso s) = Ok i /\ 0 <= i < (if fst (mat_id true iso s) then num_2N_coup_states true iso Jmax
              else num_2N_unco_states true iso Jmax).
Proof.
  intros Hr HJ. rewrite mat_id_tensor by assumption. apply phys_cases in Hr.
  unfold is_coup, num_2N_coup_states, num_2N_unco_states.
  destruct s as [L S J T l tj t3 tT P]. pws. rewrite odd_mod in Hr.
  destruct ((S =? 1) && negb (L =? J) && negb (J =? 0) || iso && (S =? 0) && (J =? 0)) eqn:E1;
  cbn [fst snd]; eexists; (split; [ reflexivity | ]).
  - destruct iso; [ destruct (S =? 0) eqn:E3 | ]; lia.
  - destruct iso; lia.
Qed.

(* off-diagonal lookups *)
Lemma offdiag_tensor iso r c : physical r -> physical c -> interaction_allowed true r c = true ->
  same_2N_channel true r c /\ coupled_matrix true iso r c = coupled_matrix true iso r r /\ unique_2N_idx true iso (coupled_matrix true iso r c) (L_2N r) (S_2N r) (J_2N r) (T_2N r) = snd (mat_id true iso r).
Proof.
  intros Hr Hc H. apply phys_cases in Hr, Hc.
  assert (Hm : coupled_matrix true iso r c = coupled_matrix true iso r r).
  { unfold interaction_allowed, same_2N, coupled_matrix, coupled_via_L_2N, coupled_via_T_3N in *.
    rewrite odd_mod in *. destruct iso; lia. }
  split; [ | split; [ exact Hm | rewrite Hm; reflexivity ] ].
  unfold interaction_allowed, same_2N, same_2N_channel in *. rewrite odd_mod in *.
  assert (HE : (Z.Even (L_2N r + L_2N c)) <-> (L_2N r + L_2N c) mod 2 = 0).
  { rewrite <- Z.even_spec. rewrite Zmod_even. destruct (Z.even (L_2N r + L_2N c)); lia. }
  rewrite HE. repeat split; try lia.
Qed.

(* tensor force off *)
Lemma mat_id_notensor s : physical s ->
  mat_id false false s =
  (false, Ok (if J_2N s =? 0 then S_2N s else
              if J_2N s =? 1 then 2 + (if S_2N s =? 0 then 0 else 3 - L_2N s)
              else 6 * J_2N s + (if S_2N s =? 0 then 0 else J_2N s - L_2N s + 2))).
Proof.
  intros Hr. apply phys_cases in Hr. destruct s as [L S J T l tj t3 tT P]. pws. rewrite odd_mod in Hr.
  unfold mat_id, coupled_matrix, coupled_via_L_2N, coupled_via_T_3N, unique_2N_idx; pws.
  rewrite Bool.andb_false_r. cbn [andb orb negb]. f_equal. f_equal.
  destruct (J =? 0) eqn:E1; [ | destruct (J =? 1) eqn:E2 ].
  - assert (J = 0) as -> by lia. destruct (S =? 1) eqn:E3; cbn; lia.
  - assert (J = 1) as -> by lia. destruct (S =? 1) eqn:E3; destruct (S =? 0) eqn:E4; replace (1 >? 1) with false by reflexivity; replace (1 =? 0) with false by reflexivity; cbn [Z.b2z andb negb]; lia.
  - replace (J >? 1) with true by lia. destruct (S =? 1) eqn:E3; destruct (S =? 0) eqn:E4; rewrite ?E1; cbn [Z.b2z andb negb]; lia.
Qed.

Lemma unique_inj_notensor r c : physical r -> physical c ->
  (mat_id false false r = mat_id false false c <-> same_2N_channel false r c).
Proof.
  intros Hr Hc. rewrite !mat_id_notensor by assumption. apply phys_cases in Hr, Hc.
  destruct r as [L S J T l tj t3 tT P]. destruct c as [L' S' J' T' l' tj' t3' tT' P'].
  unfold same_2N_channel; pws. rewrite !odd_mod in *. split.
  - intros H. apply pair_ok_inj in H.
    destruct (J =? 0) eqn:E1; destruct (J' =? 0) eqn:E2; destruct (J =? 1) eqn:E3; destruct (J' =? 1) eqn:E4;
    destruct (S =? 0) eqn:E5; destruct (S' =? 0) eqn:E6; lia.
  - intros (-> & -> & -> & H). assert (L = L') as -> by (destruct H as [?|[? _]]; [ assumption | discriminate ]).
    reflexivity.
Qed.

Lemma unique_range_notensor Jmax s : physical s -> J_2N s <= Jmax -> Jmax <= 1 ->
  exists i, snd (mat_id false false s) = Ok i /\ fst (mat_id false false s) = false /\ 0 <= i < num_2N_unco_states false false Jmax.
Proof.
  intros Hr HJ HM. rewrite mat_id_notensor by assumption. apply phys_cases in Hr.
  eexists. split; [ reflexivity | split; [ reflexivity | ] ]. unfold num_2N_unco_states.
  destruct s as [L S J T l tj t3 tT P]. pws. rewrite odd_mod in Hr.
  destruct (J =? 0) eqn:E1; destruct (J =? 1) eqn:E2; destruct (S =? 0) eqn:E3; lia.
Qed.
