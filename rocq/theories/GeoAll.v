From Coq Require Import Reals Lra ZifyBool.
From Verif Require Import Common ArrayLib PWModel PWSpec SwpModel SwpProofs GridSpec GridPropsLemmas PermModel PermSpec PermPropsLemmas
  KernelModel KernelProofs PotentialPropsLemmas GeoModel GeoSpec GeoProofs GeoProofs2.
Open Scope Z_scope.

Lemma max_of_ge f l : 0 <= max_of f l /\ forall s, In s l -> f s <= max_of f l.
Proof.
  unfold max_of.
  assert (G : forall l m, 0 <= m -> m <= fold_left (fun m s => if m <? f s then f s else m) l m /\
     forall s, In s l -> f s <= fold_left (fun m s => if m <? f s then f s else m) l m).
  { clear. induction l as [|a l IH]; intros m Hm; cbn [fold_left]; [ split; [ lia | intros s [] ] | ].
    destruct (Z.ltb_spec m (f a)).
    - destruct (IH (f a) ltac:(lia)) as [H1 H2]. split; [ lia | ]. intros s [<-|Hs]; [ lia | apply H2, Hs ].
    - destruct (IH m Hm) as [H1 H2]. split; [ lia | ]. intros s [<-|Hs]; [ lia | apply H2, Hs ]. }
  destruct (G l 0 ltac:(lia)) as [H1 H2]. split; assumption.
Qed.
Lemma i32_range z : - 2 ^ 31 <= i32 z < 2 ^ 31.
Proof. unfold i32. pose proof (Z.mod_pos_bound (z + 2 ^ 31) (2 ^ 32) ltac:(lia)). lia. Qed.
Lemma i32_id z : - 2 ^ 31 <= z < 2 ^ 31 -> i32 z = z.
Proof. intros H. unfold i32. rewrite Z.mod_small by lia. lia. Qed.
Lemma sixj_size_ok jm sz : sixj_size jm = Ok sz -> sz = (jm + 1) * (jm + 1) * (jm + 1) * (jm + 1) * (jm + 1) * (jm + 1).
Proof.
  unfold sixj_size. set (n6 := (jm + 1) * (jm + 1) * (jm + 1) * (jm + 1) * (jm + 1) * (jm + 1)).
  destruct (i32 n6 <? 0); [ discriminate | ]. destruct (i32 n6 =? n6) eqn:E; [ | discriminate ]. intros [= <-]. lia.
Qed.

(* four nested counting loops *)
Definition t4 : Type := nat * (nat * (nat * nat)).
Definition l4 (a b c d : nat) : list t4 :=
  flat_map (fun i => flat_map (fun j => flat_map (fun k => map (fun l => (i,(j,(k,l)))) (seq 0 d)) (seq 0 c)) (seq 0 b)) (seq 0 a).
Lemma in_l4 a b c d i j k l : In (i,(j,(k,l))) (l4 a b c d) <-> (i < a /\ j < b /\ k < c /\ l < d)%nat.
Proof.
  unfold l4. split.
  - intros H. apply in_flat_map in H. destruct H as (? & H1 & H). apply in_flat_map in H. destruct H as (? & H2 & H).
    apply in_flat_map in H. destruct H as (? & H3 & H). apply in_map_iff in H. destruct H as (? & E & H4).
    injection E as -> -> -> ->. rewrite in_seq in *. lia.
  - intros H. apply in_flat_map. exists i. rewrite in_seq. split; [ lia | ]. apply in_flat_map. exists j. rewrite in_seq. split; [ lia | ].
    apply in_flat_map. exists k. rewrite in_seq. split; [ lia | ]. apply in_map_iff. exists l. rewrite in_seq. split; [ reflexivity | lia ].
Qed.
Lemma cell_horner Np Nphi Nx qp pp j i : cell_dir Np Nphi Nx qp pp j i = (((qp * Np + pp) * Nphi + j) * Nx + i)%nat.
Proof. unfold cell_dir. ring. Qed.
Lemma cell_lt Np Nq Nphi Nx qp pp j i : (qp < Nq -> pp < Np -> j < Nphi -> i < Nx -> cell_dir Np Nphi Nx qp pp j i < Nq * Np * Nphi * Nx)%nat.
Proof. intros. rewrite cell_horner. apply rm_lt; [ apply rm_lt; [ apply rm_lt | ] | ]; assumption. Qed.
Lemma cell_inj Np Nphi Nx qp pp j i qp' pp' j' i' : (pp < Np -> j < Nphi -> i < Nx -> pp' < Np -> j' < Nphi -> i' < Nx ->
  cell_dir Np Nphi Nx qp pp j i = cell_dir Np Nphi Nx qp' pp' j' i' -> qp = qp' /\ pp = pp' /\ j = j' /\ i = i')%nat.
Proof.
  intros. rewrite !cell_horner in *. apply rm_inj in H5; [ | assumption | assumption ]. destruct H5 as [H5 ->].
  apply rm_inj in H5; [ | assumption | assumption ]. destruct H5 as [H5 ->]. apply rm_inj in H5; [ | assumption | assumption ]. tauto.
Qed.

Section All.
Variable sixj : Z -> Z -> Z -> Z -> Z -> Z -> R.
Variable ninej : Z -> Z -> Z -> Z -> Z -> Z -> Z -> Z -> Z -> R.
Variable threej : Z -> Z -> Z -> Z -> Z -> Z -> R.
Variable sphP : Z -> Z -> R -> R.
Variable legblock : Z -> R -> list R.
Variable legsize : Z -> Z.
Hypothesis H3 : threej_rule threej.
Hypothesis H9 : ninej_rule ninej.
Hypothesis HLeg : legendre_rule sphP legblock legsize.

(* reading a Legendre block stored at block number k of an array *)
Lemma block_read t k lmax x l m : 0 <= lmax ->
  (forall i, (i < Z.to_nat (legsize lmax))%nat -> nth (k * Z.to_nat (legsize lmax) + i) t 0%R = nth i (legblock lmax x) 0%R) ->
  ((k + 1) * Z.to_nat (legsize lmax) <= length t)%nat ->
  0 <= m <= l -> l <= lmax -> zread t (zn k * legsize lmax + leg_idx l m) = Ok (sphP l m x).
Proof.
  intros H0 Hb Hlen Hm Hl. destruct (HLeg lmax x H0) as [Hs Hr].
  pose proof (Hr l m Hm Hl) as E. pose proof (leg_idx_lt l m lmax Hm Hl) as Hi. fold (leg_idx l m) in E.
  assert (Hlt : (Z.to_nat (leg_idx l m) < length (legblock lmax x))%nat) by (apply nth_error_Some; congruence).
  assert (Hz : 0 <= legsize lmax) by lia.
  assert (Hk : zn k * legsize lmax + leg_idx l m = Z.of_nat (k * Z.to_nat (legsize lmax) + Z.to_nat (leg_idx l m))) by (unfold zn; lia).
  rewrite Hk. rewrite (zread_ok _ _ 0%R) by nia. f_equal. rewrite Nat2Z.id. rewrite Hb by lia. apply nth_error_nth. exact E.
Qed.

Lemma plm1_ok lmax xs tab : 0 <= lmax -> length tab = (length xs * Z.to_nat (legsize lmax))%nat ->
  exists t, plm1_array legblock legsize lmax xs tab = Ok t /\
    forall i l m, (i < length xs)%nat -> 0 <= m <= l -> l <= lmax ->
      zread t (zn i * legsize lmax + leg_idx l m) = Ok (sphP l m (nth i xs 0%R)).
Proof.
  intros H0 Hlen. unfold plm1_array.
  destruct (block_scatter (fun i : nat => i) (fun i => legblock lmax (nth i xs 0%R)) (Z.to_nat (legsize lmax)) (seq 0 (length xs)) tab)
    as (t & E & L & W).
  - intros i Hi. apply in_seq in Hi. destruct (HLeg lmax (nth i xs 0%R) H0) as [Hs _]. split; [ lia | ]. rewrite Hlen. nia.
  - intros i j _ _ ->. reflexivity.
  - exists t. split.
    + rewrite <- E. apply ofold_ext. intros i s Hi. apply in_seq in Hi. rewrite (GridProofs.aread_nth _ _ 0%R) by lia. reflexivity.
    + intros i l m Hi Hm Hl. apply block_read; try assumption; [ | rewrite L, Hlen; nia ]. intros k Hk. apply W; [ | exact Hk ]. apply in_seq. lia.
Qed.

Lemma plm23_ok maxL maxl Np Nq Nphi sa ca xs t2 t3 : 0 <= maxL -> 0 <= maxl ->
  length sa = (Nq * Np * Nphi)%nat -> length ca = (Nq * Np * Nphi)%nat ->
  length t2 = (Nq * Np * Nphi * length xs * Z.to_nat (legsize maxL))%nat ->
  length t3 = (Nq * Np * Nphi * length xs * Z.to_nat (legsize maxl))%nat ->
  exists u v, plm23_arrays legblock legsize maxL maxl Np Nq Nphi sa ca xs (t2, t3) = Ok (u, v) /\
    forall qp pp j i l m, (qp < Nq)%nat -> (pp < Np)%nat -> (j < Nphi)%nat -> (i < length xs)%nat -> 0 <= m <= l ->
      let k := cell_dir Np Nphi (length xs) qp pp j i in
      let p := nth ((qp * Np + pp) * Nphi + j) sa 0%R in let q := nth ((qp * Np + pp) * Nphi + j) ca 0%R in
      (l <= maxL -> zread u (zn k * legsize maxL + leg_idx l m) = Ok (sphP l m (costheta1 p q (nth i xs 0%R)))) /\
      (l <= maxl -> zread v (zn k * legsize maxl + leg_idx l m) = Ok (sphP l m (costheta2 p q (nth i xs 0%R)))).
Proof.
  intros H0 H0' Ls Lc L2 L3. set (Nx := length xs) in *.
  set (P := fun x : t4 => let '(qp,(pp,(j,i))) := x in nth ((qp * Np + pp) * Nphi + j) sa 0%R).
  set (Q := fun x : t4 => let '(qp,(pp,(j,i))) := x in nth ((qp * Np + pp) * Nphi + j) ca 0%R).
  set (K := fun x : t4 => let '(qp,(pp,(j,i))) := x in cell_dir Np Nphi Nx qp pp j i).
  set (XX := fun x : t4 => let '(qp,(pp,(j,i))) := x in nth i xs 0%R).
  assert (Kc : forall x y, In x (l4 Nq Np Nphi Nx) -> In y (l4 Nq Np Nphi Nx) -> K x = K y -> x = y).
  { intros (a,(b,(c,d))) (a',(b',(c',d'))) Hx Hy Hk. apply in_l4 in Hx, Hy. cbn [K] in Hk.
    apply cell_inj in Hk; try tauto. destruct Hk as (-> & -> & -> & ->). reflexivity. }
  assert (Kl : forall x, In x (l4 Nq Np Nphi Nx) -> (K x < Nq * Np * Nphi * Nx)%nat).
  { intros (a,(b,(c,d))) Hx. apply in_l4 in Hx. apply cell_lt; tauto. }
  destruct (block_scatter K (fun x => legblock maxL (costheta1 (P x) (Q x) (XX x))) (Z.to_nat (legsize maxL)) (l4 Nq Np Nphi Nx) t2) as (u & Eu & Lu & Wu).
  { intros x Hx. destruct (HLeg maxL (costheta1 (P x) (Q x) (XX x)) H0) as [Hs _]. split; [ lia | ]. rewrite L2. specialize (Kl x Hx). nia. }
  { intros x y Hx Hy Hk. rewrite (Kc x y Hx Hy Hk). reflexivity. }
  destruct (block_scatter K (fun x => legblock maxl (costheta2 (P x) (Q x) (XX x))) (Z.to_nat (legsize maxl)) (l4 Nq Np Nphi Nx) t3) as (v & Ev & Lv & Wv).
  { intros x Hx. destruct (HLeg maxl (costheta2 (P x) (Q x) (XX x)) H0') as [Hs _]. split; [ lia | ]. rewrite L3. specialize (Kl x Hx). nia. }
  { intros x y Hx Hy Hk. rewrite (Kc x y Hx Hy Hk). reflexivity. }
  exists u, v. split.
  - rewrite <- (pair_fold _ _ _ _ _ _ _ Eu Ev). unfold plm23_arrays, l4. fold Nx.
    apply ofold_flat. intros qp s1 Hqp. apply ofold_flat. intros pp s2 Hpp. apply ofold_flat. intros j s3 Hj.
    rewrite ofold_map. apply ofold_ext. intros i s4 Hi. rewrite in_seq in *.
    assert (Hb : ((qp * Np + pp) * Nphi + j < Nq * Np * Nphi)%nat) by (apply rm_lt; [ apply rm_lt | ]; lia).
    rewrite (GridProofs.aread_nth xs _ 0%R) by (fold Nx; lia). cbn [obind]. rewrite (GridProofs.aread_nth sa _ 0%R) by lia. cbn [obind].
    rewrite (GridProofs.aread_nth ca _ 0%R) by lia. cbn [obind]. reflexivity.
  - intros qp pp j i l m Hqp Hpp Hj Hi Hm k p q.
    assert (Hin : In (qp,(pp,(j,i))) (l4 Nq Np Nphi Nx)) by (apply in_l4; tauto).
    pose proof (Kl _ Hin) as Hk. cbn [K] in Hk. fold k in Hk. split; intros Hl.
    + apply block_read; try assumption; [ | rewrite Lu, L2; nia ]. intros n Hn. apply (Wu (qp,(pp,(j,i))) n Hin Hn).
    + apply block_read; try assumption; [ | rewrite Lv, L3; nia ]. intros n Hn. apply (Wv (qp,(pp,(j,i))) n Hin Hn).
Qed.

Variable states : list pw.
Variable J : Z.
Hypothesis Hst : states <> [].
Hypothesis Hphys : forall s, In s states -> physical s /\ two_J_3N s = J.
Variables (Np Nq Nphi : nat) (phi xs : list R) (k : gjunk) (sz : Z).
Hypothesis Hsz : sixj_size (2 * geo_lmax states) = Ok sz.
Hypothesis Lphi : length phi = (Nq * Np * Nphi)%nat.
Hypothesis L6 : Z.of_nat (length (k_six k)) = sz.
Hypothesis Lcg : Z.of_nat (length (k_cg k)) = cg_size (2 * geo_lmax states).
Hypothesis L1 : length (k_P1 k) = (length xs * Z.to_nat (legsize (max_l3 states)))%nat.
Hypothesis L2 : length (k_P2 k) = (Nq * Np * Nphi * length xs * Z.to_nat (legsize (max_L12 states)))%nat.
Hypothesis L3 : length (k_P3 k) = (Nq * Np * Nphi * length xs * Z.to_nat (legsize (max_l3 states)))%nat.

Lemma rec_cut r c L : physical r -> physical c -> two_J_3N r = J -> (J + 5) / 2 < L -> recoupling sixj ninej r c L = 0%R.
Proof.
  intros Pr Pc HJ HL. unfold recoupling. destruct (two_T_3N r =? two_T_3N c); [ | reflexivity ].
  assert (Hz : forall two_S a b c' d e f, two_S = 1 \/ two_S = 3 -> ninej a b c' d e f (2 * L) two_S (two_J_3N r) = 0%R).
  { intros two_S a b c' d e f HS. apply H9. unfold can_couple. rewrite HJ.
    pose proof (Z.div_mod (J + 5) 2 ltac:(lia)). pose proof (Z.mod_pos_bound (J + 5) 2 ltac:(lia)). lia. }
  cbv zeta. rewrite !Hz by tauto. ring.
Qed.

Lemma geo_values : exists t, geo_tables sixj ninej threej legblock legsize states Np Nq Nphi phi xs k = Ok t /\
  forall qp pp ap a out, (qp < Nq)%nat -> (pp < Np)%nat -> 0 <= ap < zn (length states) -> 0 <= a < zn (length states) ->
    length out = (Nphi * length xs)%nat ->
    exists G, gtilde_subarray legsize states t Np Nphi xs qp pp ap a out = Ok G /\ length G = (Nphi * length xs)%nat /\
      forall j i, (j < Nphi)%nat -> (i < length xs)%nat ->
        let f := nth ((qp * Np + pp) * Nphi + j) phi 0%R in let x := nth i xs 0%R in
        nth (j * length xs + i) G 0%R =
        geometric sixj ninej threej sphP (st states ap) (st states a) x (costheta1 (sin f) (cos f) x) (costheta2 (sin f) (cos f) x).
Proof.
  pose proof (max_of_ge L_2N states) as [M0 M1]. pose proof (max_of_ge L_1N states) as [M2 M3].
  fold (max_L12 states) in M0, M1. fold (max_l3 states) in M2, M3.
  set (jm := 2 * geo_lmax states) in *. assert (Hjm : jm = 2 * (Z.max (max_l3 states) (max_L12 states) + 3)) by reflexivity.
  assert (HLm : geo_Lmax states = max_L12 states + max_l3 states) by reflexivity.
  apply sixj_size_ok in Hsz as Hsz'.
  destruct (sixj_table_ok sixj jm (k_six k)) as (six & E6 & R6); [ lia | lia | ].
  destruct (atilde_store_ok sixj ninej six jm ltac:(lia) R6 states J (geo_Lmax states) Hphys ltac:(lia)) as (A & EA & RA).
  destruct (cg_table_ok threej jm (k_cg k)) as (cg & Ecg & Rcg); [ lia | exact Lcg | ].
  destruct (plm1_ok (max_l3 states) xs (k_P1 k) M2 L1) as (P1 & E1 & R1).
  destruct (plm23_ok (max_L12 states) (max_l3 states) Np Nq Nphi (map sin phi) (map cos phi) xs (k_P2 k) (k_P3 k) M0 M2)
    as (P2 & P3 & E23 & R23); try (rewrite map_length; exact Lphi); try assumption.
  assert (Hex : exists s0, aread states 0 = Ok s0 /\ In s0 states).
  { clear - Hst. destruct states as [|s0 rest]; [ congruence | ]. exists s0. split; [ reflexivity | left; reflexivity ]. }
  destruct Hex as (s0 & Hs0 & Is0).
  assert (HJ0 : two_J_3N s0 = J) by (apply Hphys, Is0).
  exists (mkgtabs A cg P1 P2 P3). split.
  - unfold geo_tables. fold jm. rewrite Hs0. cbn [obind]. rewrite Hsz. cbn [obind]. rewrite E6. cbn [obind]. rewrite HJ0, EA. cbn [obind].
    rewrite Ecg. cbn [obind]. rewrite E1. cbn [obind]. rewrite E23. reflexivity.
  - intros qp pp ap a out Hqp Hpp Hap Ha Lout.
    destruct (st_in sixj ninej six jm R6 states J (geo_Lmax states) ap Hap) as [Iap Rap]. destruct (st_in sixj ninej six jm R6 states J (geo_Lmax states) a Ha) as [Ia Ra].
    destruct (Hphys _ Iap) as [Pap Jap]. destruct (Hphys _ Ia) as [Pa Ja].
    pose proof (phys_bounds _ Pap) as Bap. pose proof (phys_bounds _ Pa) as Ba.
    pose proof (M1 _ Iap). pose proof (M1 _ Ia). pose proof (M3 _ Iap). pose proof (M3 _ Ia).
    unfold gtilde_subarray. rewrite Hs0, Rap, Ra. cbn [obind g_A g_cg g_P1 g_P2 g_P3]. fold jm.
    set (Nx := length xs) in *.
    set (val := fun ji : nat * nat => let '(j, i) := ji in
        let f := nth ((qp * Np + pp) * Nphi + j) phi 0%R in let x := nth i xs 0%R in
        geometric sixj ninej threej sphP (st states ap) (st states a) x (costheta1 (sin f) (cos f) x) (costheta2 (sin f) (cos f) x)).
    destruct (scatter (fun ji : nat * nat => (fst ji * Nx + snd ji)%nat) val (nest Nphi Nx) out) as (G & EG & LG & WG & _).
    + intros (j, i) Hji. apply in_nest in Hji. cbn [fst snd]. rewrite Lout. apply rm_lt; tauto.
    + intros (j, i) (j', i') Hji Hji' E. apply in_nest in Hji, Hji'. cbn [fst snd] in E. apply rm_inj in E; try tauto. destruct E as [-> ->]. reflexivity.
    + exists G. split; [ | split; [ lia | ] ].
      * rewrite <- EG. unfold nest. apply ofold_flat. intros j s Hj. apply in_seq in Hj. rewrite ofold_map. apply ofold_ext.
        intros i s' Hi. apply in_seq in Hi. cbn [fst snd]. rewrite HJ0.
        set (f := nth ((qp * Np + pp) * Nphi + j) phi 0%R). set (x := nth i xs 0%R).
        assert (Hb : ((qp * Np + pp) * Nphi + j < length phi)%nat) by (rewrite Lphi; apply rm_lt; [ apply rm_lt | ]; lia).
        assert (Es' : nth ((qp * Np + pp) * Nphi + j) (map sin phi) 0%R = sin f).
        { rewrite (nth_indep _ _ (sin 0)) by (rewrite map_length; exact Hb). rewrite map_nth. reflexivity. }
        assert (Ec' : nth ((qp * Np + pp) * Nphi + j) (map cos phi) 0%R = cos f).
        { rewrite (nth_indep _ _ (cos 0)) by (rewrite map_length; exact Hb). rewrite map_nth. reflexivity. }
        rewrite (gtilde_ok threej sphP H3 A cg P1 P2 P3 jm _ _ _ _ (L_2N (st states ap)) (L_2N (st states a)) (L_1N (st states ap)) (L_1N (st states a)) J
           (geo_Lmax states) x (costheta1 (sin f) (cos f) x) (costheta2 (sin f) (cos f) x) (recoupling sixj ninej (st states ap) (st states a)));
          try lia; try exact Rcg.
        -- reflexivity.
        -- intros L HL. apply RA; assumption.
        -- intros L HL. apply rec_cut; assumption.
        -- intros m Hm. apply R1; [ lia | lia | lia ].
        -- intros m Hm. destruct (R23 qp pp j i (L_2N (st states a)) m Hqp Hpp ltac:(lia) ltac:(fold Nx; lia) Hm) as [R _].
           cbv zeta in R. rewrite Es', Ec' in R. apply R. lia.
        -- intros m Hm. destruct (R23 qp pp j i (L_1N (st states a)) m Hqp Hpp ltac:(lia) ltac:(fold Nx; lia) Hm) as [_ R].
           cbv zeta in R. rewrite Es', Ec' in R. apply R. lia.
      * intros j i Hj Hi. cbv zeta. apply nth_error_nth. apply (WG (j, i)). apply in_nest. tauto.
Qed.
End All.
