(* The file of cell boundaries: what the loops fill in, and the text. *)
From Coq Require Import Reals Lra String Ascii.
From Verif Require Import Common ArrayLib PWModel PWSpec PWChnProofs PWPropsLemmas SwpModel SwpProofs ResolventModel ResolventSpec ResolventArrayProofs
  GridModel GridSpec GridProofs GridPropsLemmas OnShellModel OnShellSpec OnShellProofs OnShellBreakupProofs OnShellBreakupProofs2
  ParamsModel NameModel TextModel TextSpec TextNum TextProofs TextLines RecordProofs NeumannModel BoundsModel BoundsSpec.
Open Scope nat_scope.

Section BU.
Variables (iso : bool) (Jm : Z) (Np Nq : nat) (e_unco e_coup q : list R) (states : list pw) (Eb : R).
Hypothesis Hstates : forall s, In s states -> physical s /\ (J_2N s <= Jm)%Z.
Hypothesis Lunco : Z.of_nat (length e_unco) = (num_2N_unco_states true iso Jm * Z.of_nat (Np + 1))%Z.
Hypothesis Lcoup : Z.of_nat (length e_coup) = (num_2N_coup_states true iso Jm * Z.of_nat (2 * (Np + 1)))%Z.
Hypothesis Lq : length q = Nq + 1.
Notation ebound := (e_bound_of iso Np e_unco e_coup).
Notation Na := (length states).
Notation size := (4 * (Na * Nq * Np)).

(* what belongs to cell (a, iq, ip), place j *)
Definition cell_value (s : pw) (iq ip j : nat) : R :=
  match j with 0 => E_free (nth iq q 0%R) | 1 => E_free (nth (iq + 1) q 0%R) | 2 => ebound s ip | _ => ebound s (ip + 1) end.
Definition place (a iq ip j : nat) : nat := 4 * (a * Np * Nq + iq * Np + ip) + j.
Definition writes_cell (sa : nat * pw) (iq ip : nat) : list (nat * R) := map (fun j => (place (fst sa) iq ip j, cell_value (snd sa) iq ip j)) [0; 1; 2; 3].
Definition writes_state (sa : nat * pw) : list (nat * R) := flat_map (fun iq => flat_map (fun ip => writes_cell sa iq ip) (seq 0 Np)) (seq 0 Nq).
Definition all_writes : list (nat * R) := flat_map writes_state (combine (seq 0 Na) states).

Lemma bounds_writes arr : bounds_array true iso Np Nq e_unco e_coup q states arr = ofold wr all_writes arr.
Proof.
  unfold bounds_array, all_writes. apply ofold_flat. intros [a s] arr1 Hin. cbn [fst snd].
  pose proof (in_combine_r _ _ _ _ Hin) as Hs. destruct (Hstates s Hs) as [Hp HJ].
  destruct (e_block_spec iso Np Jm s Hp HJ (phys_T3 s Hp)) as (coup & i & Hm & Hi & Hb). rewrite Hb. cbn [obind].
  apply ofold_flat. intros iq arr2 Hq. apply in_seq in Hq. rewrite (aread_nth q iq 0%R), (aread_nth q (iq + 1) 0%R) by lia. cbn [obind].
  apply ofold_flat. intros ip arr3 Hip. apply in_seq in Hip.
  assert (Ho : e_offset Np coup i s + ip + 1 < length (if coup then e_coup else e_unco)).
  { eapply offset_bound; try eassumption. lia. }
  rewrite (zread_ok _ (Z.of_nat (e_offset Np coup i s) + zn ip) 0%R) by (unfold zn; lia). cbn [obind].
  rewrite (zread_ok _ (Z.of_nat (e_offset Np coup i s) + zn ip + 1) 0%R) by (unfold zn; lia). cbn [obind].
  unfold writes_cell. cbn [map ofold fst snd]. unfold wr. cbn [fst snd cell_value]. unfold e_bound_of. rewrite Hm.
  replace (Z.to_nat (Z.of_nat (e_offset Np coup i s) + zn ip)) with (e_offset Np coup i s + ip) by (unfold zn; lia).
  replace (Z.to_nat (Z.of_nat (e_offset Np coup i s) + zn ip + 1)) with (e_offset Np coup i s + (ip + 1)) by (unfold zn; lia).
  unfold place. destruct (awrite arr3 _ _) as [b0| | |]; cbn [obind]; try reflexivity.
  destruct (awrite b0 _ _) as [b1| | |]; cbn [obind]; try reflexivity.
  destruct (awrite b1 _ _) as [b2| | |]; cbn [obind]; try reflexivity.
  destruct (awrite b2 _ _) as [b3| | |]; reflexivity.
Qed.
Lemma in_writes x : In x all_writes <-> exists a s iq ip j, nth_error states a = Some s /\ iq < Nq /\ ip < Np /\ j < 4 /\ x = (place a iq ip j, cell_value s iq ip j).
Proof.
  unfold all_writes, writes_state, writes_cell. rewrite in_flat_map. split.
  - intros ([a s] & Ha & H). apply in_combine_seq in Ha. rewrite Nat.sub_0_r in Ha. apply in_flat_map in H. destruct H as (iq & Hq & H).
    apply in_flat_map in H. destruct H as (ip & Hp & H). apply in_map_iff in H. destruct H as (j & <- & Hj). apply in_seq in Hq, Hp.
    exists a, s, iq, ip, j. assert (j < 4) by (cbn in Hj; lia). repeat split; try tauto; lia.
  - intros (a & s & iq & ip & j & Ha & Hq & Hp & Hj & ->). exists (a, s). split; [ apply in_combine_seq; rewrite Nat.sub_0_r; split; [ lia | exact Ha ] | ].
    apply in_flat_map. exists iq. split; [ apply in_seq; lia | ]. apply in_flat_map. exists ip. split; [ apply in_seq; lia | ].
    apply in_map_iff. exists j. split; [ reflexivity | cbn; lia ].
Qed.
Lemma place_lt a iq ip j : a < Na -> iq < Nq -> ip < Np -> j < 4 -> place a iq ip j < size.
Proof.
  intros H1 H2 H3 H4. pose proof (rm_lt Na Nq a iq H1 H2) as A. pose proof (rm_lt _ Np _ ip A H3) as B.
  pose proof (rm_lt _ 4 _ j B H4) as C. unfold place. nia.
Qed.
Lemma place_inj a iq ip j a' iq' ip' j' : iq < Nq -> ip < Np -> j < 4 -> iq' < Nq -> ip' < Np -> j' < 4 ->
  place a iq ip j = place a' iq' ip' j' -> a = a' /\ iq = iq' /\ ip = ip' /\ j = j'.
Proof.
  intros H1 H2 H3 H4 H5 H6 H. unfold place in H. assert (H' : ((a * Nq + iq) * Np + ip) * 4 + j = ((a' * Nq + iq') * Np + ip') * 4 + j') by nia.
  apply rm_inj in H'; [ | lia | lia ]. destruct H' as [H' ->]. apply rm_inj in H'; [ | lia | lia ]. destruct H' as [H' ->].
  apply rm_inj in H'; [ | lia | lia ]. destruct H' as [-> ->]. auto.
Qed.
Lemma place_surj k : k < size -> exists a iq ip j, a < Na /\ iq < Nq /\ ip < Np /\ j < 4 /\ k = place a iq ip j.
Proof.
  intros H. rewrite Nat.mul_comm in H. destruct (rm_surj _ _ k H) as (x & j & H1 & H2 & ->). destruct (rm_surj _ _ x H1) as (y & ip & H3 & H4 & ->).
  destruct (rm_surj _ _ y H3) as (a & iq & H5 & H6 & ->). exists a, iq, ip, j. repeat split; try assumption. unfold place. nia.
Qed.
(* the finished array, whatever was in it *)
Definition finished (arr : list R) : Prop := length arr = size /\
  forall a s iq ip j, nth_error states a = Some s -> iq < Nq -> ip < Np -> j < 4 -> nth_error arr (place a iq ip j) = Some (cell_value s iq ip j).
Lemma finished_unique x y : finished x -> finished y -> x = y.
Proof.
  intros [L1 H1] [L2 H2]. apply list_ext; [ congruence | ]. intros k Hk. rewrite L1 in Hk. destruct (place_surj k Hk) as (a & iq & ip & j & A1 & A2 & A3 & A4 & ->).
  destruct (nth_error states a) as [s|] eqn:Es; [ | apply nth_error_None in Es; lia ]. rewrite (H1 a s iq ip j), (H2 a s iq ip j) by assumption. reflexivity.
Qed.
Lemma bounds_array_ok arr : length arr = size -> exists arr', bounds_array true iso Np Nq e_unco e_coup q states arr = Ok arr' /\ finished arr'.
Proof.
  intros L. rewrite bounds_writes. destruct (scatter fst snd all_writes arr) as (arr' & E & L' & W & _).
  - intros x Hx. apply in_writes in Hx. destruct Hx as (a & s & iq & ip & j & H1 & H2 & H3 & H4 & ->). cbn [fst]. rewrite L.
    apply place_lt; try assumption. apply nth_error_Some. congruence.
  - intros x y Hx Hy. apply in_writes in Hx, Hy. destruct Hx as (a & s & iq & ip & j & H1 & H2 & H3 & H4 & ->), Hy as (a' & s' & iq' & ip' & j' & K1 & K2 & K3 & K4 & ->).
    cbn [fst snd]. intros H. apply place_inj in H; try assumption. destruct H as (-> & -> & -> & ->). congruence.
  - exists arr'. split; [ exact E | ]. split; [ congruence | ]. intros a s iq ip j H1 H2 H3 H4.
    apply (W (place a iq ip j, cell_value s iq ip j)). apply in_writes. exists a, s, iq, ip, j. auto.
Qed.

(* ---------- all energies ---------- *)
Variable dbl : R -> double.
Notation run := (bounds_run true iso Np Nq e_unco e_coup q states Eb dbl).
Lemma run_ok (arr0 : list R) : length arr0 = size -> exists text, 
  (forall arr, finished arr -> text = array_text dbl arr) /\ (exists arr, finished arr) /\
  forall Es (arr : list R), length arr = size ->
    (forall t, In t (fst (run arr Es)) -> t = text) /\
    (fst (run arr Es) = [] <-> forall E, In E Es -> (E + Eb < 0)%R) /\
    snd (run arr Es) = (do r <- breakup_cells true iso Np Nq e_unco e_coup q states Eb Es; Ok tt).
Proof.
  intros L0. destruct (bounds_array_ok arr0 L0) as (arrF & _ & F). exists (array_text dbl arrF).
  split; [ intros arr Ha; f_equal; apply finished_unique; assumption | ]. split; [ exists arrF; exact F | ].
  assert (RB : forall x, Rltb x 0 = true <-> (x < 0)%R) by (intros; apply Rltb_true).
  intros Es. assert (G : forall arr : list R, length arr = size ->
    (forall t, In t (fst (run arr Es)) -> t = array_text dbl arrF) /\ (fst (run arr Es) = [] <-> forall E, In E Es -> (E + Eb < 0)%R) /\
    snd (run arr Es) = if forallb (fun E => Rltb (E + Eb) 0 || match energy_list iso Np Nq e_unco e_coup q states E with [] => false | _ => true end) Es then Ok tt else Err).
  { induction Es as [|E Es IH]; intros arr L.
    - cbn. split; [ intros t [] | ]. split; [ split; [ intros _ E [] | reflexivity ] | reflexivity ].
    - cbn [bounds_run]. destruct (Rltb (E + Eb) 0) eqn:Eb0.
      + destruct (IH arr L) as (I1 & I2 & I3). split; [ exact I1 | ]. split.
        * rewrite I2. split; [ intros H x [<-|Hx]; [ apply RB, Eb0 | apply H, Hx ] | intros H x Hx; apply H; right; exact Hx ].
        * rewrite I3. cbn [forallb]. rewrite Eb0. reflexivity.
      + assert (Hn : ~ (E + Eb < 0)%R) by (rewrite <- RB; congruence).
        destruct (bounds_array_ok arr L) as (arr' & Ea & F'). rewrite Ea. cbn [obind].
        rewrite (energy_ok iso Jm Np Nq e_unco e_coup q states Hstates Lunco Lcoup Lq). cbn [obind].
        assert (ET : array_text dbl arr' = array_text dbl arrF) by (f_equal; apply finished_unique; assumption).
        destruct (energy_list iso Np Nq e_unco e_coup q states E) as [|t new] eqn:En.
        * cbn [fst snd forallb]. rewrite Eb0, En. cbn. split; [ intros u [<-|[]]; exact ET | ]. split; [ | reflexivity ].
          split; [ discriminate | intros H; exfalso; apply Hn, H; left; reflexivity ].
        * destruct (IH arr' (proj1 F')) as (I1 & I2 & I3). cbn [fst snd forallb]. rewrite Eb0, En. cbn [orb andb].
          split; [ intros u [<-|Hu]; [ exact ET | apply I1, Hu ] | ]. split; [ | exact I3 ].
          split; [ discriminate | intros H; exfalso; apply Hn, H; left; reflexivity ]. }
  intros arr L. destruct (G arr L) as (G1 & G2 & G3). split; [ exact G1 | ]. split; [ exact G2 | ]. rewrite G3.
  rewrite (cells_ok iso Jm Np Nq e_unco e_coup q states Eb Hstates Lunco Lcoup Lq).
  destruct (forallb _ Es); reflexivity.
Qed.
End BU.

(* ---------- the text ---------- *)
Lemma array_lines dbl a : lines (array_text dbl a) = (map (fun x => fixed_pos 8 (dbl x)) a ++ [""%string])%list.
Proof.
  unfold array_text. apply lines_unlines. intros l Hl. rewrite in_app_iff in Hl. destruct Hl as [Hl|[<-|[]]]; [ | reflexivity ].
  apply in_map_iff in Hl. destruct Hl as (x & <- & _). apply clean_oneline, fixed_pos_clean.
Qed.
Lemma fixed_pos_decimals x : finite x -> exists v, read_real (fixed_pos 8 x) = Some v /\ to_decimals 8 (value x) v.
Proof. intros F. eexists. split; [ apply read_fixed_pos; [ lia | exact F ] | apply fixed_int_ok, F ]. Qed.

Lemma put_bounds_same text ts fs : (forall t, In t ts -> t = text) ->
  put_bounds ts fs bounds_file = (match ts with [] => fs bounds_file | _ => Some text end) /\ forall f, f <> bounds_file -> put_bounds ts fs f = fs f.
Proof.
  unfold put_bounds. revert fs. induction ts as [|t ts IH]; intros fs H; [ split; reflexivity | ]. cbn [fold_left].
  destruct (IH (put_text true bounds_file t fs)) as [I1 I2]; [ intros; apply H; right; assumption | ]. split.
  - rewrite I1. destruct ts; [ | reflexivity ]. unfold put_text. rewrite String.eqb_refl. rewrite (H t (or_introl eq_refl)). reflexivity.
  - intros f Hf. rewrite I2 by exact Hf. unfold put_text. destruct (String.eqb_spec f bounds_file); [ contradiction | reflexivity ].
Qed.

Lemma fixed_pos_cons p x : exists c r, fixed_pos p x = String c r /\ (c = "+" \/ c = "-")%char.
Proof.
  unfold fixed_pos, plus. destruct (sign_bit x) eqn:E; [ | eexists; eexists; split; [ reflexivity | left; reflexivity ] ].
  destruct x as [sg|sg|sg|sg m e]; cbn [sign_bit] in E; subst sg; cbn [fixed minus append]; eexists; eexists; (split; [ reflexivity | right; reflexivity ]).
Qed.
Lemma fixed_pos_fields p x : fields (fixed_pos p x) = [fixed_pos p x].
Proof.
  destruct (fixed_pos_cons p x) as (c & r & E & _). rewrite <- (sapp_nil (fixed_pos p x)) at 1. rewrite fields_word; [ reflexivity | apply fixed_pos_clean | rewrite E; discriminate | exact I ].
Qed.
Lemma array_table dbl a : table (array_text dbl a) = map (fun x => [fixed_pos 8 (dbl x)]) a.
Proof.
  unfold table. rewrite array_lines. induction a as [|x a IH]; [ reflexivity | ]. cbn [map app filter].
  destruct (fixed_pos_cons 8 (dbl x)) as (c & r & E & Hc).
  replace (TextSpec.comment (fixed_pos 8 (dbl x))) with false by (rewrite E; destruct Hc as [->| ->]; reflexivity). cbn [negb map filter]. rewrite fixed_pos_fields. f_equal. exact IH.
Qed.

Section Final.
Variables (iso : bool) (Jm : Z) (Np Nq : nat) (e_unco e_coup q : list R) (states : list pw) (Eb : R) (dbl : R -> double).
Hypothesis Hstates : forall s, In s states -> physical s /\ (J_2N s <= Jm)%Z.
Hypothesis Lunco : Z.of_nat (length e_unco) = (num_2N_unco_states true iso Jm * Z.of_nat (Np + 1))%Z.
Hypothesis Lcoup : Z.of_nat (length e_coup) = (num_2N_coup_states true iso Jm * Z.of_nat (2 * (Np + 1)))%Z.
Hypothesis Lq : length q = Nq + 1.
Lemma gives_ok r x : r = Some [fixed_pos 8 x] -> gives r x.
Proof. intros -> F. destruct (fixed_pos_decimals x F) as (v & V1 & V2). exists (fixed_pos 8 x), v. auto. Qed.
Lemma bounds_final (arr : list R) : length arr = 4 * (length states * Nq * Np) ->
  exists bound text, pair_boundaries iso Np e_unco e_coup states bound /\ length (table text) = 4 * (length states * Nq * Np) /\
    (forall a iq ip, a < length states -> iq < Nq -> ip < Np ->
       let k := 4 * ((a * Nq + iq) * Np + ip) in
       gives (nth_error (table text) k) (dbl (q_energy (lower q iq))) /\ gives (nth_error (table text) (k + 1)) (dbl (q_energy (upper q iq))) /\
       gives (nth_error (table text) (k + 2)) (dbl (bound a ip)) /\ gives (nth_error (table text) (k + 3)) (dbl (bound a (ip + 1)))) /\
    forall Es fs, let r := bounds_run true iso Np Nq e_unco e_coup q states Eb dbl arr Es in
      snd r = (do x <- breakup_cells true iso Np Nq e_unco e_coup q states Eb Es; Ok tt) /\
      ((exists E, In E Es /\ (0 <= E + Eb)%R) -> put_bounds (fst r) fs bounds_file = Some text) /\
      ((forall E, In E Es -> (E + Eb < 0)%R) -> put_bounds (fst r) fs bounds_file = fs bounds_file) /\
      forall f, f <> bounds_file -> put_bounds (fst r) fs f = fs f.
Proof.
  intros L. destruct (run_ok iso Jm Np Nq e_unco e_coup q states Eb Hstates Lunco Lcoup Lq dbl arr L) as (text & T1 & (arrF & F) & T2).
  exists (bnd iso Np e_unco e_coup states), text. split; [ exact (bnd_place iso Jm Np e_unco e_coup states Hstates Lunco Lcoup) | ].
  rewrite (T1 arrF F), array_table. split; [ rewrite map_length; apply F | ]. split.
  - intros a iq ip Ha Hq Hp. cbv zeta. destruct (nth_error states a) as [s|] eqn:Es; [ | apply nth_error_None in Es; lia ].
    assert (H : forall j, j < 4 -> nth_error (map (fun x => [fixed_pos 8 (dbl x)]) arrF) (4 * ((a * Nq + iq) * Np + ip) + j) = Some [fixed_pos 8 (dbl (cell_value iso Np e_unco e_coup q s iq ip j))]).
    { intros j Hj. rewrite nth_error_map. replace (4 * ((a * Nq + iq) * Np + ip) + j) with (place Np Nq a iq ip j) by (unfold place; nia).
      rewrite (proj2 F a s iq ip j Es Hq Hp Hj). reflexivity. }
    unfold bnd. rewrite Es. pose proof (H 0 ltac:(lia)) as H0. rewrite Nat.add_0_r in H0.
    pose proof (H 1 ltac:(lia)) as H1. pose proof (H 2 ltac:(lia)) as H2. pose proof (H 3 ltac:(lia)) as H3. cbn [cell_value] in H0, H1, H2, H3.
    rewrite E_free_eq in H0, H1. repeat split; apply gives_ok; assumption.
  - intros Es fs. cbv zeta. destruct (T2 Es arr L) as (R1 & R2 & R3). split; [ exact R3 | ].
    destruct (put_bounds_same text _ fs R1) as [P1 P2]. split; [ | split; [ | exact P2 ] ].
    + intros (E & HE & HE2). rewrite P1. destruct (fst _) eqn:Ef; [ | rewrite (T1 arrF F); reflexivity ].
      exfalso. pose proof (proj1 R2 eq_refl E HE). lra.
    + intros H. rewrite P1, (proj2 R2 H). reflexivity.
Qed.
Lemma bounds_last ts1 ts2 fs : ts2 <> [] -> (exists text, forall t, In t ts2 -> t = text) -> put_bounds ts2 (put_bounds ts1 fs) bounds_file = put_bounds ts2 fs bounds_file.
Proof. intros H (text & T). rewrite (proj1 (put_bounds_same text ts2 _ T)), (proj1 (put_bounds_same text ts2 fs T)). destruct ts2; [ congruence | reflexivity ]. Qed.
End Final.
