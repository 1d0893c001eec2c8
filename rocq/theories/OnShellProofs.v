From Coq Require Import Reals Lra Sorted.
From Verif Require Import Common ArrayLib PWModel SwpModel SwpProofs ResolventModel GridModel GridSpec GridProofs GridPropsLemmas
  OnShellModel OnShellSpec.
Open Scope nat_scope.

Lemma Rleb_true x y : Rleb x y = true <-> (x <= y)%R.
Proof. unfold Rleb. destruct (Rle_dec x y); split; intros; try assumption; try discriminate; try reflexivity; contradiction. Qed.
Lemma Rleb_false x y : Rleb x y = false <-> (y < x)%R.
Proof. unfold Rleb. destruct (Rle_dec x y); split; intros; try discriminate; try reflexivity; lra. Qed.

(* ---------- the mid-point of a bin ---------- *)
Section Mid.
Variable Eb : R.
Hypothesis HEb : (- (Mn + Mp) < Eb)%R.
Open Scope R_scope.

Lemma red_pos : 0 < reduced_mass Mn (Mn + Mp + Eb).
Proof. unfold reduced_mass. apply Rdiv_lt_0_compat; [ apply Rmult_lt_0_compat | ]; unfold Mn, Mp in *; lra. Qed.
Lemma ratio_pos : 0 < mass_ratio Eb.
Proof. unfold mass_ratio. apply Rdiv_lt_0_compat; [ unfold MN, Mn, Mp; lra | exact red_pos ]. Qed.

Lemma mid_energy_momentum ql qu :
  com_energy_to_com_q_momentum (0.5 * (0.5 * (qu * qu) / kin_mu1 Eb + 0.5 * (ql * ql) / kin_mu1 Eb)) = mid_momentum Eb ql qu.
Proof.
  unfold com_energy_to_com_q_momentum, mid_momentum, mass_ratio. f_equal.
  change (kin_mu1 Eb) with (reduced_mass Mn (Mn + Mp + Eb)). pose proof red_pos. generalize dependent (reduced_mass Mn (Mn + Mp + Eb)).
  intros m Hm. replace 0.5 with (/ 2) by lra. field. lra.
Qed.
Lemma mid_T_eq ql qu : mid_T_lab Eb ql qu = com_momentum_to_lab_energy (mid_momentum Eb ql qu) Eb.
Proof. unfold mid_T_lab. rewrite mid_energy_momentum. reflexivity. Qed.

Lemma mid_k_nonneg ql qu : 0 <= mid_momentum Eb ql qu.
Proof. apply sqrt_pos. Qed.
Lemma mid_k_sq ql qu : mid_momentum Eb ql qu * mid_momentum Eb ql qu = mass_ratio Eb * ((ql * ql + qu * qu) / 2).
Proof. apply sqrt_sqrt. pose proof ratio_pos. apply Rmult_le_pos; [ lra | nra ]. Qed.
Lemma mid_T_nonneg ql qu : 0 <= mid_T_lab Eb ql qu.
Proof. rewrite mid_T_eq. apply (proj1 (proj2 (proj2 (kin_props Eb HEb)))). apply mid_k_nonneg. Qed.
Lemma mid_T_k ql qu : lab_energy_to_com_momentum (mid_T_lab Eb ql qu) Eb = mid_momentum Eb ql qu.
Proof. rewrite mid_T_eq. apply (proj1 (proj2 (proj2 (kin_props Eb HEb)))). apply mid_k_nonneg. Qed.
Lemma mid_T_physical ql qu : com_momentum_of Mp (Mn + Mp + Eb) (mid_T_lab Eb ql qu) (mid_momentum Eb ql qu).
Proof. rewrite <- mid_T_k. apply (proj1 (kin_props Eb HEb)). apply mid_T_nonneg. Qed.
Lemma mid_k_lt a b c d : a * a + b * b < c * c + d * d -> mid_momentum Eb a b < mid_momentum Eb c d.
Proof.
  intros H. unfold mid_momentum. apply sqrt_lt_1_alt. pose proof ratio_pos. split; [ apply Rmult_le_pos; [ lra | nra ] | ].
  apply Rmult_lt_compat_l; lra.
Qed.
Lemma mid_T_lt a b c d : a * a + b * b < c * c + d * d -> mid_T_lab Eb a b < mid_T_lab Eb c d.
Proof.
  intros H. rewrite !mid_T_eq. apply (proj2 (proj2 (proj2 (proj2 (kin_props Eb HEb))))); [ apply mid_k_nonneg | apply mid_k_lt, H ].
Qed.
End Mid.

(* ---------- the loops ---------- *)
Lemma seq_snoc n d i (r : list nat) : seq 0 n = d ++ i :: r -> d = seq 0 i /\ i < n.
Proof.
  intros H. destruct (seq_split n d i r H) as [-> Hl]. split; [ | exact Hl ].
  assert (E : firstn (length d) (seq 0 n) = d) by (rewrite H, firstn_app, Nat.sub_diag, firstn_all; cbn; rewrite app_nil_r; reflexivity).
  rewrite <- E at 1. replace n with (length d + (n - length d)) by lia. rewrite seq_app, firstn_app, seq_length, Nat.sub_diag.
  rewrite firstn_all2 by (rewrite seq_length; lia). cbn. rewrite app_nil_r. reflexivity.
Qed.

Section Loops.
Variables (Nq : nat) (q : list R) (Eb : R) (inputs : list R).
Hypothesis Lq : length q = Nq + 1.

Definition mid (i : nat) : R := mid_T_lab Eb (lower q i) (upper q i).
Definition between (j : nat) (T : R) : bool := Rleb (mid j) T && Rleb T (mid (j + 1)).
Definition pair_marked (j : nat) : bool := existsb (between j) inputs.
Definition bin_marked (i : nat) : bool :=
  existsb (fun j => pair_marked j && ((i =? j) || (i =? j + 1))) (seq 0 (Nq - 1)).

Lemma mids_ok a : length a = Nq -> T_lab_midpoints Nq q Eb a = Ok (map mid (seq 0 Nq)).
Proof.
  intros L. unfold T_lab_midpoints. apply fill_loop; [ exact L | ]. intros i s Hi.
  rewrite (aread_nth q i 0%R), (aread_nth q (i + 1) 0%R) by lia. reflexivity.
Qed.

Lemma awrite_bool (m : list bool) i : i < length m ->
  exists m', awrite m i true = Ok m' /\ length m' = length m /\ forall j, nth j m' false = if j =? i then true else nth j m false.
Proof.
  intros H. destruct (awrite_ok m i true H) as (m' & E & L & N & O). exists m'. split; [ exact E | ]. split; [ exact L | ].
  intros j. destruct (Nat.eqb_spec j i) as [->|Hne]; [ apply nth_error_nth, N | ].
  specialize (O j Hne). destruct (nth_error m j) eqn:En.
  - rewrite (nth_error_nth _ _ _ O), (nth_error_nth _ _ _ En). reflexivity.
  - apply nth_error_None in En, O. rewrite !nth_overflow by assumption. reflexivity.
Qed.

Lemma pairs_ok : exists m, mark_pairs Nq (map mid (seq 0 Nq)) inputs (repeat false (Nq - 1)) = Ok m /\
  length m = Nq - 1 /\ forall j, j < Nq - 1 -> nth j m false = pair_marked j.
Proof.
  unfold mark_pairs.
  destruct (ofold_inv (fun d m => length m = Nq - 1 /\ forall j, nth j m false = (j <? length d) && pair_marked j)
    (fun m i => do lo <- aread (map mid (seq 0 Nq)) i; do hi <- aread (map mid (seq 0 Nq)) (i + 1);
      ofold (fun m T => if Rleb lo T && Rleb T hi then awrite m i true else Ok m) inputs m) (seq 0 (Nq - 1)) (repeat false (Nq - 1)))
    as (m & E & L & H).
  - split; [ apply repeat_length | ]. intros j. cbn.
    destruct (Nat.lt_ge_cases j (Nq - 1)); [ | apply nth_overflow; rewrite repeat_length; assumption ].
    apply (repeat_spec (Nq - 1)), nth_In. rewrite repeat_length. assumption.
  - intros d i r m Hl [L H]. destruct (seq_snoc _ _ _ _ Hl) as [-> Hi]. rewrite seq_length in *.
    rewrite (aread_nth _ i 0%R), (aread_nth _ (i + 1) 0%R) by (rewrite map_length, seq_length; lia). cbn [obind].
    rewrite !nth_map_seq by lia.
    destruct (ofold_inv (fun e m' => length m' = Nq - 1 /\ forall j, nth j m' false = if j =? i then existsb (between i) e else nth j m false)
       (fun m T => if Rleb (mid i) T && Rleb T (mid (i + 1)) then awrite m i true else Ok m) inputs m) as (m' & E' & L' & H').
    + split; [ exact L | ]. intros j. destruct (Nat.eqb_spec j i) as [->|]; [ | reflexivity ]. rewrite H.
      cbn [existsb]. destruct (Nat.ltb_spec i i); [ lia | reflexivity ].
    + intros e T r' s _ [Ls Hs]. change (Rleb (mid i) T && Rleb T (mid (i + 1))) with (between i T).
      destruct (between i T) eqn:Eb1.
      * destruct (awrite_bool s i) as (s' & Es & Ls' & Hs'); [ lia | ]. exists s'. split; [ exact Es | ]. split; [ lia | ].
        intros j. rewrite Hs', existsb_app. cbn. rewrite Eb1. rewrite orb_true_r. destruct (Nat.eqb_spec j i); [ reflexivity | ].
        rewrite Hs. destruct (Nat.eqb_spec j i); [ congruence | reflexivity ].
      * exists s. split; [ reflexivity | ]. split; [ exact Ls | ]. intros j. rewrite Hs, existsb_app. cbn. rewrite Eb1, !orb_false_r. reflexivity.
    + exists m'. split; [ exact E' | ]. split; [ exact L' | ]. intros j. rewrite H', app_length, seq_length. cbn [length].
      destruct (Nat.eqb_spec j i) as [->|Hne].
      * destruct (Nat.ltb_spec i (i + 1)); [ reflexivity | lia ].
      * rewrite H. destruct (Nat.ltb_spec j i), (Nat.ltb_spec j (i + 1)); try reflexivity; lia.
  - exists m. split; [ exact E | ]. split; [ exact L | ]. intros j Hj. rewrite H, seq_length. destruct (Nat.ltb_spec j (Nq - 1)); [ reflexivity | lia ].
Qed.

Lemma bins_ok m : length m = Nq - 1 -> (forall j, j < Nq - 1 -> nth j m false = pair_marked j) ->
  exists b, mark_bins Nq m (repeat false Nq) = Ok b /\ length b = Nq /\ forall i, nth i b false = bin_marked i.
Proof.
  intros Lm Hm. unfold mark_bins, bin_marked.
  destruct (ofold_inv (fun d b => length b = Nq /\ forall i, nth i b false = existsb (fun j => pair_marked j && ((i =? j) || (i =? j + 1))) d)
    (fun b i => do x <- aread m i; if x then do b <- awrite b i true; awrite b (i + 1) true else Ok b) (seq 0 (Nq - 1)) (repeat false Nq))
    as (b & E & L & H).
  - split; [ apply repeat_length | ]. intros j. cbn.
    destruct (Nat.lt_ge_cases j Nq); [ | apply nth_overflow; rewrite repeat_length; assumption ].
    apply (repeat_spec Nq), nth_In. rewrite repeat_length. assumption.
  - intros d i r b Hl [L H]. destruct (seq_snoc _ _ _ _ Hl) as [-> Hi].
    rewrite (aread_nth m i false) by lia. cbn [obind]. rewrite Hm by lia. destruct (pair_marked i) eqn:Ep.
    + destruct (awrite_bool b i) as (b1 & E1 & L1 & H1); [ lia | ]. rewrite E1. cbn [obind].
      destruct (awrite_bool b1 (i + 1)) as (b2 & E2 & L2 & H2); [ lia | ]. exists b2. split; [ exact E2 | ]. split; [ lia | ].
      intros k. rewrite H2, H1, existsb_app. cbn [existsb]. rewrite Ep, orb_false_r. cbn [andb]. rewrite H.
      destruct (k =? i + 1); [ rewrite !orb_true_r; reflexivity | ].
      destruct (k =? i); cbn [orb]; rewrite ?orb_true_r, ?orb_false_r; reflexivity.
    + exists b. split; [ reflexivity | ]. split; [ exact L | ]. intros k. rewrite H, existsb_app. cbn [existsb]. rewrite Ep. cbn. rewrite !orb_false_r. reflexivity.
  - exists b. auto.
Qed.

Lemma list_ok b : length b = Nq -> bin_list Nq b = Ok (filter (fun i => nth i b false) (seq 0 Nq)).
Proof.
  intros L. unfold bin_list. assert (G : forall l acc, (forall i, In i l -> i < length b) ->
    ofold (fun v i => do x <- aread b i; Ok (if x then v ++ [i] else v)) l acc = Ok (acc ++ filter (fun i => nth i b false) l)).
  { induction l as [|i l IH]; intros acc H; [ cbn; rewrite app_nil_r; reflexivity | ]. cbn [ofold filter].
    rewrite (aread_nth b i false) by (apply H; left; reflexivity). cbn [obind]. rewrite IH by (intros; apply H; right; assumption).
    destruct (nth i b false); [ rewrite <- app_assoc; reflexivity | reflexivity ]. }
  rewrite G; [ reflexivity | ]. intros i Hi. apply in_seq in Hi. lia.
Qed.

Definition in_bin (x : R) (i : nat) : bool := Rltb (lower q i) x && Rltb x (upper q i).
Lemma find_bin_ok x : find_bin Nq q x = Ok (find (in_bin x) (seq 0 Nq)).
Proof.
  unfold find_bin.
  set (body := fun (r : option nat) (i : nat) => match r with Some _ => Ok r | None => do ql <- aread q i; do qu <- aread q (i + 1);
      Ok (if Rltb ql x && Rltb x qu then Some i else None) end).
  assert (S : forall l k, ofold body l (Some k) = Ok (Some k)) by (induction l; intros; [ reflexivity | cbn; apply IHl ]).
  assert (G : forall l, (forall i, In i l -> i < Nq) -> ofold body l None = Ok (find (in_bin x) l)); [ | apply G; intros i Hi; apply in_seq in Hi; lia ].
  induction l as [|i l IH]; intros H; [ reflexivity | ]. cbn [ofold find]. unfold body at 1.
  specialize (H i (or_introl eq_refl)) as Hi. rewrite (aread_nth q i 0%R), (aread_nth q (i + 1) 0%R) by lia. cbn [obind].
  change (Rltb (nth i q 0%R) x && Rltb x (nth (i + 1) q 0%R)) with (in_bin x i).
  destruct (in_bin x i); cbn [obind]; [ apply S | apply IH; intros; apply H; right; assumption ].
Qed.

Definition selected : list nat := filter bin_marked (seq 0 Nq).
Definition kmid (i : nat) : R := mid_momentum Eb (lower q i) (upper q i).
Definition home (i : nat) : option nat := find (in_bin (kmid i)) (seq 0 Nq).

Fixpoint all_some {A} (l : list (option A)) : option (list A) :=
  match l with [] => Some [] | o :: r => match o, all_some r with Some x, Some xs => Some (x :: xs) | _, _ => None end end.

Lemma elastic_ok : 1 <= Nq -> (- (Mn + Mp) < Eb)%R ->
  elastic_bins Nq q Eb inputs =
  match all_some (map home selected) with
  | Some idx => Ok (mkos selected (map mid selected) (map kmid selected) (map (fun i => com_q_momentum_to_com_energy (kmid i)) selected) idx)
  | None => Err
  end.
Proof.
  intros HN HE. unfold elastic_bins. destruct (Nat.eqb_spec Nq 0); [ lia | ].
  rewrite mids_ok by apply repeat_length. cbn [obind]. destruct pairs_ok as (m & Em & Lm & Hm). rewrite Em. cbn [obind].
  destruct (bins_ok m Lm Hm) as (b & Eb1 & Lb & Hb). rewrite Eb1. cbn [obind]. rewrite list_ok by exact Lb. cbn [obind].
  assert (Es : filter (fun i => nth i b false) (seq 0 Nq) = selected) by (apply filter_ext; intros i; apply Hb). rewrite Es.
  assert (Hsel : forall i, In i selected -> i < Nq) by (intros i Hi; apply filter_In in Hi; destruct Hi as [Hi _]; apply in_seq in Hi; lia).
  assert (ET : forall l acc, (forall i, In i l -> i < Nq) ->
     ofold (fun l i => do ql <- aread q i; do qu <- aread q (i + 1); Ok (l ++ [mid_T_lab Eb ql qu])) l acc = Ok (acc ++ map mid l)).
  { induction l as [|i l IH]; intros acc H; [ cbn; rewrite app_nil_r; reflexivity | ]. cbn [ofold map].
    specialize (H i (or_introl eq_refl)) as Hi. rewrite (aread_nth q i 0%R), (aread_nth q (i + 1) 0%R) by lia. cbn [obind].
    rewrite IH by (intros; apply H; right; assumption). rewrite <- app_assoc. reflexivity. }
  rewrite ET by exact Hsel. cbn [obind app].
  assert (Eq1 : map (fun t => lab_energy_to_com_momentum t Eb) (map mid selected) = map kmid selected).
  { rewrite map_map. apply map_ext. intros i. apply mid_T_k, HE. }
  rewrite Eq1.
  assert (EI : forall l acc, ofold (fun l x => do r <- find_bin Nq q x; match r with Some i => Ok (l ++ [i]) | None => Err end) (map kmid l) acc
     = match all_some (map home l) with Some idx => Ok (acc ++ idx) | None => Err end).
  { induction l as [|i l IH]; intros acc; [ cbn; rewrite app_nil_r; reflexivity | ]. cbn [ofold map all_some]. rewrite find_bin_ok. cbn [obind].
    change (find (in_bin (kmid i)) (seq 0 Nq)) with (home i).
    destruct (home i) as [j|]; cbn [obind]; [ | reflexivity ]. rewrite IH. destruct (all_some (map home l)); [ rewrite <- app_assoc; reflexivity | reflexivity ]. }
  rewrite EI. destruct (all_some (map home selected)); [ cbn [obind app]; rewrite map_map; reflexivity | reflexivity ].
Qed.

Lemma all_some_Forall2 {A B} (f : A -> option B) l r : all_some (map f l) = Some r <-> Forall2 (fun a b => f a = Some b) l r.
Proof.
  revert r; induction l as [|a l IH]; intros r; cbn.
  - split; [ intros [= <-]; constructor | intros H; inversion H; reflexivity ].
  - destruct (f a) as [b|] eqn:E; [ destruct (all_some (map f l)) as [bs|] eqn:Es | ]; split; intros H; try discriminate.
    + injection H as <-. constructor; [ exact E | apply IH; reflexivity ].
    + inversion H; subst. f_equal. f_equal; [ congruence | ]. apply IH in H4. congruence.
    + inversion H; subst. apply IH in H4. discriminate.
    + inversion H; subst. congruence.
Qed.
Lemma all_some_none {A B} (f : A -> option B) l : all_some (map f l) = None <-> exists a, In a l /\ f a = None.
Proof.
  induction l as [|a l IH]; cbn; [ split; [ discriminate | intros (x & [] & _) ] | ].
  destruct (f a) as [b|] eqn:E; [ destruct (all_some (map f l)) as [bs|] eqn:Es | ]; split; intros H; try discriminate; try reflexivity.
  - destruct H as (x & [<-|Hx] & Hf); [ congruence | ]. assert (Some bs = None) by (apply IH; exists x; auto). discriminate.
  - destruct (proj1 IH eq_refl) as (x & Hx & Hf). exists x; auto.
  - exists a; auto.
Qed.

Lemma seq_sorted n k : StronglySorted lt (seq k n).
Proof.
  revert k; induction n as [|n IH]; intros k; constructor; [ apply IH | ]. apply Forall_forall. intros x Hx. apply in_seq in Hx. lia.
Qed.
Lemma filter_sorted {A} (R : A -> A -> Prop) f l : StronglySorted R l -> StronglySorted R (filter f l).
Proof.
  induction 1 as [|a l S IH F]; cbn; [ constructor | ]. destruct (f a); [ | exact IH ]. constructor; [ exact IH | ].
  rewrite Forall_forall in *. intros x Hx. apply filter_In in Hx. apply F, Hx.
Qed.
Lemma selected_sorted : StronglySorted lt selected.
Proof. apply filter_sorted, seq_sorted. Qed.

Lemma in_selected i : In i selected <-> exists T j, In T inputs /\ j + 1 < Nq /\ (mid j <= T <= mid (j + 1))%R /\ (i = j \/ i = j + 1).
Proof.
  unfold selected, bin_marked. rewrite filter_In, in_seq, existsb_exists. split.
  - intros (Hi & j & Hj & H). apply in_seq in Hj. apply andb_true_iff in H. destruct H as [Hp Hij].
    apply existsb_exists in Hp. destruct Hp as (T & HT & Hb). unfold between in Hb. rewrite andb_true_iff, !Rleb_true in Hb.
    exists T, j. rewrite orb_true_iff, !Nat.eqb_eq in Hij. repeat split; try assumption; try lia; tauto.
  - intros (T & j & HT & Hj & Hb & Hij). split; [ lia | ]. exists j. split; [ apply in_seq; lia | ].
    apply andb_true_iff. split; [ | rewrite orb_true_iff, !Nat.eqb_eq; exact Hij ].
    apply existsb_exists. exists T. split; [ exact HT | ]. unfold between. rewrite andb_true_iff, !Rleb_true. exact Hb.
Qed.
End Loops.

(* an increasing sequence brackets every value in its range *)
Lemma bracket (f : nat -> R) n x : (f 0%nat <= x <= f n)%R -> 1 <= n -> exists j, j < n /\ (f j <= x <= f (j + 1)%nat)%R.
Proof.
  induction n as [|n IH]; intros H Hn; [ lia | ]. destruct (Rle_lt_dec x (f n)) as [Hx|Hx].
  - destruct n as [|n]; [ exists 0; split; [ lia | cbn in *; lra ] | ]. destruct IH as (j & Hj & Hb); [ lra | lia | ]. exists j. split; [ lia | exact Hb ].
  - exists n. split; [ lia | ]. rewrite Nat.add_1_r. lra.
Qed.

Lemma part_lu Nq q i : partition_from_zero Nq q -> i < Nq -> (0 <= lower q i < upper q i)%R.
Proof.
  intros (_ & H0 & H) Hi. unfold lower, upper. specialize (H i (i + 1) ltac:(lia)) as H1. split; [ | exact H1 ].
  destruct i as [|i]; [ rewrite H0; lra | ]. specialize (H 0 (S i) ltac:(lia)). lra.
Qed.
Lemma part_le Nq q i j : partition_from_zero Nq q -> i <= j -> j <= Nq -> (nth i q 0 <= nth j q 0)%R.
Proof. intros (_ & _ & H) Hij Hj. destruct (Nat.eq_dec i j) as [->|]; [ lra | ]. specialize (H i j ltac:(lia)). lra. Qed.
Lemma part_mid_lt Nq q Eb i j : (- (Mn + Mp) < Eb)%R -> partition_from_zero Nq q -> i < j -> j < Nq -> (mid q Eb i < mid q Eb j)%R.
Proof.
  intros HE P Hij Hj. unfold mid. apply mid_T_lt; [ exact HE | ].
  pose proof (part_lu Nq q i P ltac:(lia)). pose proof (part_lu Nq q j P Hj).
  assert (upper q i <= lower q j)%R by (unfold lower, upper; apply (part_le Nq); try assumption; lia). nra.
Qed.
Lemma find_in_bin Nq q x i : partition_from_zero Nq q -> i < Nq -> (lower q i < x < upper q i)%R -> find (in_bin q x) (seq 0 Nq) = Some i.
Proof.
  intros P Hi Hx. destruct (find (in_bin q x) (seq 0 Nq)) as [j|] eqn:E.
  - apply find_some in E. destruct E as [Hj Hb]. apply in_seq in Hj. unfold in_bin in Hb. rewrite andb_true_iff, !Rltb_true in Hb.
    destruct (Nat.lt_trichotomy i j) as [H|[H|H]]; [ | congruence | ]; exfalso.
    + assert (upper q i <= lower q j)%R by (apply (part_le Nq); try assumption; lia). lra.
    + assert (upper q j <= lower q i)%R by (apply (part_le Nq); try assumption; lia). lra.
  - exfalso. pose proof (find_none _ _ E i ltac:(apply in_seq; lia)) as Hn. unfold in_bin in Hn.
    assert (Rltb (lower q i) x && Rltb x (upper q i) = true) by (rewrite andb_true_iff, !Rltb_true; exact Hx). congruence.
Qed.
