From Coq Require Import Reals Lra ZifyBool.
From Verif Require Import Common ArrayLib PWModel PWSpec SwpModel SwpProofs GridSpec GridPropsLemmas PermModel PermPropsLemmas
  KernelModel KernelProofs PotentialPropsLemmas GeoModel GeoSpec.
Open Scope Z_scope.

(* ---------- integer ranges and sums ---------- *)
Lemma in_upto lo hi x : In x (upto lo hi) <-> lo <= x <= hi.
Proof. unfold upto. rewrite in_for_range1. lia. Qed.
Lemma upto_map lo hi : upto lo hi = map (fun k => lo + Z.of_nat k) (seq 0 (Z.to_nat (hi - lo + 1))).
Proof.
  unfold upto, for_range. replace ((hi + 1 - lo + 1 - 1) / 1) with (hi - lo + 1) by (rewrite Z.div_1_r; lia).
  apply map_ext. intros. lia.
Qed.
Lemma upto_fold_sum (f : Z -> R) (body : R -> Z -> outcome R) lo hi acc :
  (forall k a, lo <= k <= hi -> body a k = Ok (a + f k)%R) -> ofold body (upto lo hi) acc = Ok (acc + zsum lo hi f)%R.
Proof.
  intros H. rewrite upto_map, ofold_map. unfold zsum. apply ofold_sum. intros i a Hi. apply H. lia.
Qed.
Lemma zsum_ext lo hi f g : (forall k, lo <= k <= hi -> f k = g k) -> zsum lo hi f = zsum lo hi g.
Proof. intros H. unfold zsum. apply sum_ext. intros. apply H. lia. Qed.
Lemma zsum_zero lo hi f : (forall k, lo <= k <= hi -> f k = 0%R) -> zsum lo hi f = 0%R.
Proof. intros H. unfold zsum. apply sum_zero. intros. apply H. lia. Qed.
Lemma zsum_scal c lo hi f : zsum lo hi (fun k => c * f k)%R = (c * zsum lo hi f)%R.
Proof. unfold zsum. apply (sum_scal c (fun k => f (lo + Z.of_nat k))). Qed.
Lemma sum_split f n m : sum f (n + m) = (sum f n + sum (fun k => f (n + k)%nat) m)%R.
Proof.
  induction m as [|m IH]; [ rewrite Nat.add_0_r; unfold sum at 3; cbn; ring | ].
  rewrite Nat.add_succ_r, !PermPropsLemmas.sum_S, IH. ring.
Qed.
Lemma zsum_split lo mid hi f : lo <= mid <= hi + 1 -> zsum lo hi f = (zsum lo (mid - 1) f + zsum mid hi f)%R.
Proof.
  intros H. unfold zsum. replace (Z.to_nat (hi - lo + 1)) with (Z.to_nat (mid - 1 - lo + 1) + Z.to_nat (hi - mid + 1))%nat by lia.
  rewrite sum_split. f_equal. apply sum_ext. intros. f_equal. lia.
Qed.
Lemma zsum_restrict lo hi lo' hi' f : lo <= lo' -> hi' <= hi ->
  (forall k, lo <= k <= hi -> ~ lo' <= k <= hi' -> f k = 0%R) -> zsum lo hi f = zsum lo' hi' f.
Proof.
  intros H1 H2 H. destruct (Z.le_gt_cases lo' hi') as [Hl|Hl].
  - rewrite (zsum_split lo lo' hi f) by lia. rewrite (zsum_split lo' (hi' + 1) hi f) by lia.
    rewrite (zsum_zero lo (lo' - 1)), (zsum_zero (hi' + 1) hi) by (intros; apply H; lia).
    replace (hi' + 1 - 1) with hi' by lia. ring.
  - rewrite !zsum_zero; [ reflexivity | lia | intros; apply H; lia ].
Qed.

(* ---------- signs ---------- *)
Lemma sgn_sign n : sgn n = sign n.
Proof.
  unfold sgn, sign.
  assert (D : forall m, powerRZ (-1) (2 * m) = 1%R).
  { intros m. replace (2 * m) with (m + m) by lia. rewrite powerRZ_add by lra. rewrite <- powerRZ_mult. replace (-1 * -1)%R with 1%R by ring. apply powerRZ_R1. }
  destruct (Z.even n) eqn:E.
  - apply Z.even_spec in E. destruct E as [m ->]. apply D.
  - rewrite <- Z.negb_odd in E. apply Bool.negb_false_iff, Z.odd_spec in E. destruct E as [m ->].
    rewrite powerRZ_add by lra. rewrite D. change (powerRZ (-1) 1) with (powerRZ (-1) (Z.succ 0)). rewrite powerRZ_1. ring.
Qed.

(* ---------- writing tables ---------- *)
Lemma zscatter {X A} (addr : X -> Z) (val : X -> A) l arr :
  (forall x, In x l -> 0 <= addr x < Z.of_nat (length arr)) ->
  (forall x y, In x l -> In y l -> addr x = addr y -> val x = val y) ->
  exists arr', ofold (fun a x => zwrite a (addr x) (val x)) l arr = Ok arr' /\ length arr' = length arr /\
    (forall x, In x l -> zread arr' (addr x) = Ok (val x)) /\
    (forall i, (forall x, In x l -> addr x <> i) -> zread arr' i = zread arr i).
Proof.
  intros Hb Hc.
  destruct (scatter (fun x => Z.to_nat (addr x)) val l arr) as (a' & E & L & W & O).
  - intros x Hx. specialize (Hb x Hx). lia.
  - intros x y Hx Hy H. apply Hc; try assumption. pose proof (Hb x Hx). pose proof (Hb y Hy). lia.
  - exists a'. split.
    { rewrite <- E. apply ofold_ext. intros x s Hx. unfold zwrite. replace (addr x <? 0) with false by (specialize (Hb x Hx); lia). reflexivity. }
    split; [ exact L | ]. split.
    + intros x Hx. unfold zread. replace (addr x <? 0) with false by (specialize (Hb x Hx); lia). apply aread_some, W, Hx.
    + intros i Hi. unfold zread. destruct (i <? 0) eqn:Ei; [ reflexivity | ]. unfold aread. rewrite O; [ reflexivity | ].
      intros x Hx. specialize (Hb x Hx). specialize (Hi x Hx). lia.
Qed.
Lemma radix n x y x' y' : 0 <= y < n -> 0 <= y' < n -> x * n + y = x' * n + y' -> x = x' /\ y = y'.
Proof. intros H H' E. assert (x = x') by nia. subst. lia. Qed.
Lemma radix_lt N n x y : 0 <= x < N -> 0 <= y < n -> 0 <= x * n + y < N * n.
Proof. intros. nia. Qed.

Section Six.
Variable sixj : Z -> Z -> Z -> Z -> Z -> Z -> R.
Definition t6 : Type := Z * (Z * (Z * (Z * (Z * Z)))).
Definition l6 (r : list Z) : list t6 :=
  flat_map (fun a => flat_map (fun b => flat_map (fun c => flat_map (fun d => flat_map (fun e => map (fun f => (a,(b,(c,(d,(e,f)))))) r) r) r) r) r) r.
Lemma in_l6 r a b c d e f : In (a,(b,(c,(d,(e,f))))) (l6 r) <-> In a r /\ In b r /\ In c r /\ In d r /\ In e r /\ In f r.
Proof.
  unfold l6. split.
  - intros H. apply in_flat_map in H. destruct H as (? & ? & H). apply in_flat_map in H. destruct H as (? & ? & H).
    apply in_flat_map in H. destruct H as (? & ? & H). apply in_flat_map in H. destruct H as (? & ? & H).
    apply in_flat_map in H. destruct H as (? & ? & H). apply in_map_iff in H. destruct H as (? & E & H).
    injection E as -> -> -> -> -> ->. tauto.
  - intros (Ha & Hb & Hc & Hd & He & Hf). apply in_flat_map; exists a; split; [ exact Ha | ]. apply in_flat_map; exists b; split; [ exact Hb | ].
    apply in_flat_map; exists c; split; [ exact Hc | ]. apply in_flat_map; exists d; split; [ exact Hd | ].
    apply in_flat_map; exists e; split; [ exact He | ]. apply in_map_iff. exists f. split; [ reflexivity | exact Hf ].
Qed.
Definition addr6 (jm : Z) (x : t6) : Z := let '(a,(b,(c,(d,(e,f))))) := x in sixj_idx jm a b c d e f.
Definition val6 (x : t6) : R := let '(a,(b,(c,(d,(e,f))))) := x in sixj a b c d e f.
Lemma sixj_flat jm tab : sixj_table sixj jm tab = ofold (fun t x => zwrite t (addr6 jm x) (val6 x)) (l6 (upto 0 jm)) tab.
Proof.
  unfold sixj_table, l6. do 5 (apply ofold_flat; intros ? ? _). rewrite ofold_map. reflexivity.
Qed.
Lemma sixj_horner jm a b c d e f : sixj_idx jm a b c d e f =
  ((((a * (jm + 1) + b) * (jm + 1) + c) * (jm + 1) + d) * (jm + 1) + e) * (jm + 1) + f.
Proof. unfold sixj_idx. ring. Qed.
Lemma sixj_table_ok jm tab : 0 <= jm -> Z.of_nat (length tab) = (jm + 1) * (jm + 1) * (jm + 1) * (jm + 1) * (jm + 1) * (jm + 1) ->
  exists t, sixj_table sixj jm tab = Ok t /\
    forall a b c d e f, 0 <= a <= jm -> 0 <= b <= jm -> 0 <= c <= jm -> 0 <= d <= jm -> 0 <= e <= jm -> 0 <= f <= jm ->
      sixj_read t jm a b c d e f = Ok (sixj a b c d e f).
Proof.
  intros Hj Hl. rewrite sixj_flat.
  destruct (zscatter (addr6 jm) val6 (l6 (upto 0 jm)) tab) as (t & E & L & W & _).
  - intros (a,(b,(c,(d,(e,f))))) H. apply in_l6 in H. rewrite !in_upto in H. cbn [addr6]. rewrite sixj_horner, Hl.
    do 5 (apply radix_lt; [ | lia ]). lia.
  - intros (a,(b,(c,(d,(e,f))))) (a',(b',(c',(d',(e',f'))))) H H' Ea. apply in_l6 in H, H'. rewrite !in_upto in H, H'.
    cbn [addr6] in Ea. rewrite !sixj_horner in Ea.
    apply radix in Ea; [ | lia | lia ]. destruct Ea as [Ea ->]. apply radix in Ea; [ | lia | lia ]. destruct Ea as [Ea ->].
    apply radix in Ea; [ | lia | lia ]. destruct Ea as [Ea ->]. apply radix in Ea; [ | lia | lia ]. destruct Ea as [Ea ->].
    apply radix in Ea; [ | lia | lia ]. destruct Ea as [-> ->]. reflexivity.
  - exists t. split; [ exact E | ]. intros a b c d e f Ha Hb Hc Hd He Hf. unfold sixj_read.
    apply (W (a,(b,(c,(d,(e,f)))))). apply in_l6. rewrite !in_upto. tauto.
Qed.
End Six.

Section Cg.
Variable threej : Z -> Z -> Z -> Z -> Z -> Z -> R.
Definition t5 : Type := Z * (Z * (Z * (Z * Z))).
Definition l5 (jm : Z) : list t5 :=
  flat_map (fun j1 => flat_map (fun j2 => flat_map (fun j3 => flat_map (fun m1 => map (fun m2 => (j1,(j2,(j3,(m1,m2)))))
    (upto (- j2) j2)) (upto (- j1) j1)) (upto 0 (2 * jm))) (upto 0 jm)) (upto 0 jm).
Lemma in_l5 jm j1 j2 j3 m1 m2 : In (j1,(j2,(j3,(m1,m2)))) (l5 jm) <->
  0 <= j1 <= jm /\ 0 <= j2 <= jm /\ 0 <= j3 <= 2 * jm /\ Z.abs m1 <= j1 /\ Z.abs m2 <= j2.
Proof.
  unfold l5. split.
  - intros H. apply in_flat_map in H. destruct H as (? & H1 & H). apply in_flat_map in H. destruct H as (? & H2 & H).
    apply in_flat_map in H. destruct H as (? & H3 & H). apply in_flat_map in H. destruct H as (? & H4 & H).
    apply in_map_iff in H. destruct H as (? & E & H). injection E as -> -> -> -> ->. rewrite !in_upto in *. lia.
  - intros H. apply in_flat_map. exists j1. rewrite in_upto. split; [ lia | ].
    apply in_flat_map. exists j2. rewrite in_upto. split; [ lia | ]. apply in_flat_map. exists j3. rewrite in_upto. split; [ lia | ].
    apply in_flat_map. exists m1. rewrite in_upto. split; [ lia | ]. apply in_map_iff. exists m2. rewrite in_upto. split; [ reflexivity | lia ].
Qed.
Definition addr5 (jm : Z) (x : t5) : Z := let '(j1,(j2,(j3,(m1,m2)))) := x in cg_idx jm j1 j2 j3 m1 m2.
Definition val5 (x : t5) : R := let '(j1,(j2,(j3,(m1,m2)))) := x in cg_fun threej j1 j2 j3 m1 m2 (m1 + m2).
Lemma cg_flat jm tab : cg_table threej jm tab = ofold (fun t x => zwrite t (addr5 jm x) (val5 x)) (l5 jm) tab.
Proof. unfold cg_table, l5. do 4 (apply ofold_flat; intros ? ? _). rewrite ofold_map. reflexivity. Qed.
Lemma cg_horner jm j1 j2 j3 m1 m2 : cg_idx jm j1 j2 j3 m1 m2 =
  ((j1 * j1 + j1 + m1) * ((jm + 1) * (jm + 1)) + (j2 * j2 + j2 + m2)) * (2 * jm + 1) + j3.
Proof. unfold cg_idx. ring. Qed.
Lemma jm_lt jm j m : 0 <= j <= jm -> Z.abs m <= j -> 0 <= j * j + j + m < (jm + 1) * (jm + 1).
Proof. intros. nia. Qed.
Lemma jm_inj j m j' m' : 0 <= j -> 0 <= j' -> Z.abs m <= j -> Z.abs m' <= j' -> j * j + j + m = j' * j' + j' + m' -> j = j' /\ m = m'.
Proof. intros. assert (j = j') by nia. subst. lia. Qed.
Lemma cg_table_ok jm tab : 0 <= jm -> Z.of_nat (length tab) = cg_size jm ->
  exists t, cg_table threej jm tab = Ok t /\
    forall j1 j2 j3 m1 m2, 0 <= j1 <= jm -> 0 <= j2 <= jm -> 0 <= j3 <= 2 * jm -> Z.abs m1 <= j1 -> Z.abs m2 <= j2 ->
      cg_read t jm j1 j2 j3 m1 m2 = Ok (cg_fun threej j1 j2 j3 m1 m2 (m1 + m2)).
Proof.
  intros Hj Hl. rewrite cg_flat.
  destruct (zscatter (addr5 jm) val5 (l5 jm) tab) as (t & E & L & W & _).
  - intros (j1,(j2,(j3,(m1,m2)))) H. apply in_l5 in H. cbn [addr5]. rewrite cg_horner, Hl. unfold cg_size.
    replace ((jm + 1) * (jm + 1) * (jm + 1) * (jm + 1) * (2 * jm + 1)) with (((jm + 1) * (jm + 1)) * ((jm + 1) * (jm + 1)) * (2 * jm + 1)) by ring.
    apply radix_lt; [ | lia ]. apply radix_lt; apply jm_lt; lia.
  - intros (j1,(j2,(j3,(m1,m2)))) (j1',(j2',(j3',(m1',m2')))) H H' Ea. apply in_l5 in H, H'. cbn [addr5] in Ea. rewrite !cg_horner in Ea.
    apply radix in Ea; [ | lia | lia ]. destruct Ea as [Ea ->].
    apply radix in Ea; [ | apply jm_lt; lia | apply jm_lt; lia ]. destruct Ea as [E1 E2].
    apply jm_inj in E1; try lia. apply jm_inj in E2; try lia. destruct E1 as [-> ->], E2 as [-> ->]. reflexivity.
  - exists t. split; [ exact E | ]. intros j1 j2 j3 m1 m2 H1 H2 H3 H4 H5. unfold cg_read.
    apply (W (j1,(j2,(j3,(m1,m2))))). apply in_l5. tauto.
Qed.
Lemma cg_clebsch l1 m1 l2 m2 l m : Z.abs m1 <= l1 -> Z.abs m2 <= l2 -> m = m1 + m2 ->
  cg_fun threej (2 * l1) (2 * l2) (2 * l) (2 * m1) (2 * m2) (2 * m1 + 2 * m2) = clebsch threej l1 m1 l2 m2 l m.
Proof.
  intros H1 H2 ->. unfold cg_fun, clebsch.
  replace ((Z.abs (2 * m1) <=? 2 * l1) && (Z.abs (2 * m2) <=? 2 * l2) && (Z.abs (2 * m1) <=? 2 * l1)) with true by lia.
  replace (2 * l1 - 2 * l2 + (2 * m1 + 2 * m2)) with ((l1 - l2 + (m1 + m2)) * 2) by ring. rewrite Z.quot_mul by lia.
  rewrite sgn_sign. replace (2 * (m1 + m2)) with (2 * m1 + 2 * m2) by ring. reflexivity.
Qed.
End Cg.

(* ---------- blocks ---------- *)
Lemma block_scatter {X} (k : X -> nat) (b : X -> list R) n l t :
  (forall x, In x l -> length (b x) = n /\ ((k x + 1) * n <= length t)%nat) ->
  (forall x y, In x l -> In y l -> k x = k y -> b x = b y) ->
  exists t', ofold (fun t x => ablit t (k x * n) (b x)) l t = Ok t' /\ length t' = length t /\
    forall x i, In x l -> (i < n)%nat -> nth (k x * n + i) t' 0%R = nth i (b x) 0%R.
Proof.
  intros Hb Hk.
  destruct (ofold_inv (fun d t' => length t' = length t /\ forall x i, In x d -> (i < n)%nat -> nth (k x * n + i) t' 0%R = nth i (b x) 0%R)
    (fun t x => ablit t (k x * n) (b x)) l t) as (t' & E & H).
  - split; [ reflexivity | intros x i [] ].
  - intros d x r s El [Hl Hd]. assert (Hx : In x l) by (rewrite El; apply in_or_app; right; left; reflexivity).
    destruct (Hb x Hx) as [Hn Hlt].
    destruct (ablit_ok s (b x) (k x * n) 0%R) as (s' & E & L & W & O); [ rewrite Hn, Hl; lia | ].
    exists s'. split; [ exact E | ]. split; [ lia | ]. intros y i Hy Hi. apply in_app_or in Hy.
    destruct (Nat.eq_dec (k y) (k x)) as [Ek|Ek].
    + rewrite Ek. rewrite W by lia. f_equal. apply Hk; [ exact Hx | | symmetry; exact Ek ].
      destruct Hy as [Hy|[<-|[]]]; [ rewrite El; apply in_or_app; left; exact Hy | exact Hx ].
    + destruct Hy as [Hy|[<-|[]]]; [ | contradiction ]. rewrite O; [ apply Hd; assumption | ]. rewrite Hn. nia.
  - exists t'. split; [ exact E | exact H ].
Qed.
Lemma pair_fold {S T X} (f : S -> X -> outcome S) (g : T -> X -> outcome T) l : forall s t s' t',
  ofold f l s = Ok s' -> ofold g l t = Ok t' ->
  ofold (fun st x => do u <- f (fst st) x; do v <- g (snd st) x; Ok (u, v)) l (s, t) = Ok (s', t').
Proof.
  induction l as [|x l IH]; intros s t s' t' H1 H2; cbn in *; [ congruence | ].
  destruct (f s x) as [u| | |]; try discriminate. destruct (g t x) as [v| | |]; try discriminate. cbn [obind] in *. apply IH; assumption.
Qed.
