From Coq Require Import Reals Lra ZifyBool.
From Verif Require Import Common ArrayLib PWModel PWSpec PWProofs PWChnProofs SwpModel SwpProofs GridSpec GridPropsLemmas
  PermPropsLemmas PotentialModel PotentialSpec.
Open Scope Z_scope.


Lemma aread6 (V : list R) k : length V = 6%nat -> (k < 6)%nat -> aread V k = Ok (at_ V k).
Proof.
  intros H Hk. destruct (aread_ok V k) as (v & E & N); [ lia | ]. rewrite E. f_equal. symmetry.
  apply nth_error_nth. exact N.
Qed.

(* extract: error exactly when a triangle rule is violated *)
Lemma extract_err L L' J S cpl V : ~ (triangle L S J /\ triangle L' S J) -> extract L L' J S cpl V = Err.
Proof.
  unfold triangle, extract. intros H.
  replace ((J <? Z.abs (S - L)) || (S + L <? J) || (J <? Z.abs (S - L')) || (S + L' <? J)) with true by lia.
  reflexivity.
Qed.
Lemma extract_ok L L' J S (cpl : bool) V : length V = 6%nat -> triangle L S J -> triangle L' S J -> 0 <= S <= 1 ->
  (if cpl then S = 1 /\ L <> J /\ L' <> J else L = L') ->
  extract L L' J S cpl V = Ok (element (at_ V) L L' S J).
Proof.
  unfold triangle, extract, element. intros HV H1 H2 HS Hc.
  replace ((J <? Z.abs (S - L)) || (S + L <? J) || (J <? Z.abs (S - L')) || (S + L' <? J)) with false by lia.
  rewrite !aread6 by (first [ exact HV | lia ]). cbn [obind].
  destruct cpl.
  - destruct Hc as (-> & Hc). replace (1 =? 0) with false by reflexivity.
    destruct (L =? L') eqn:E1; cbn [andb].
    + destruct (L <? J) eqn:E2; destruct (J <? L) eqn:E3; try lia.
      * replace (L =? J) with false by lia. replace (L =? J - 1) with true by lia. reflexivity.
      * replace (L =? J) with false by lia. replace (L =? J - 1) with false by lia. reflexivity.
    + destruct (L <? L'); f_equal; ring.
  - subst L'. rewrite Z.eqb_refl. destruct (S =? 0) eqn:E.
    + replace (L =? J + 1) with false by lia. replace (L =? J - 1) with false by lia. reflexivity.
    + replace (S =? 1) with true by lia. cbn [andb].
      destruct (L =? J + 1) eqn:E1; [ replace (L =? J) with false by lia; replace (L =? J - 1) with false by lia; reflexivity | ].
      destruct (L =? J - 1) eqn:E2; [ replace (L =? J) with false by lia; reflexivity | ].
      replace (L =? J) with true by lia. reflexivity.
Qed.

Lemma element_lin a b V W L L' S J :
  element (fun k => a * V k + b * W k)%R L L' S J = (a * element V L L' S J + b * element W L L' S J)%R.
Proof.
  unfold element. destruct (S =? 0); [ ring | ]. destruct (L =? L').
  - destruct (L =? J); [ ring | ]. destruct (L =? J - 1); ring.
  - destruct (L <? L'); ring.
Qed.

Lemma at_map2 (f : R -> R -> R) a b k : length a = 6%nat -> length b = 6%nat -> (k < 6)%nat ->
  length (map2 f a b) = 6%nat /\ at_ (map2 f a b) k = f (at_ a k) (at_ b k).
Proof.
  intros Ha Hb Hk.
  do 6 (destruct a as [|? a]; [ discriminate | ]). destruct a; [ | discriminate ].
  do 6 (destruct b as [|? b]; [ discriminate | ]). destruct b; [ | discriminate ].
  split; [ reflexivity | ]. unfold at_. do 6 (destruct k as [|k]; [ reflexivity | ]). lia.
Qed.

(* ---------- one pair of bins ---------- *)
Lemma areadn (V : list R) k : (k < length V)%nat -> aread V k = Ok (at_ V k).
Proof.
  intros Hk. destruct (aread_ok V k) as (v & E & N); [ lia | ]. rewrite E. f_equal. symmetry.
  apply nth_error_nth. exact N.
Qed.

Definition vis (mid : bool) (pot : potmodel) junk viaT ty r c p_in p_out :=
  if mid then vis_mid pot junk ty r c p_in p_out else vis_quad pot junk viaT ty r c p_in p_out.

Lemma wp_elements_ok mid pot junk viaT ty g r c i j :
  vgrid_ok mid g -> (i < vg_Np g)%nat -> (j < vg_Np g)%nat ->
  forall vv : R -> R -> list R,
  (forall x y, vis mid pot junk viaT ty r c x y = Ok (vv x y) /\ length (vv x y) = 6%nat) ->
  exists el, wp_elements mid pot junk viaT ty g r c i j = Ok el /\ length el = 6%nat /\
    forall k, (k < 6)%nat -> at_ el k = packet mid g (fun x y => at_ (vv x y) k) i j.
Proof.
  intros (HN & HW & Hp & Hf & Hw) Hi Hj vv Hv. unfold wp_elements.
  rewrite !areadn by lia. cbn [obind].
  destruct mid; unfold vis in Hv.
  - rewrite !areadn by lia. cbn [obind]. destruct (Hv (at_ (vg_p g) j) (at_ (vg_p g) i)) as [E L].
    rewrite E. cbn [obind]. eexists. split; [ reflexivity | ].
    split; [ apply (at_map2 _ six0 _ 0); [ reflexivity | exact L | lia ] | ].
    intros k Hk. rewrite (proj2 (at_map2 _ six0 (vv (at_ (vg_p g) j) (at_ (vg_p g) i)) k eq_refl L Hk)).
    unfold packet, packet_midpoint. replace (at_ six0 k) with 0%R.
    + unfold Rdiv. ring.
    + unfold at_, six0. do 6 (destruct k as [|k]; [ reflexivity | ]). lia.
  - specialize (Hw eq_refl).
    set (n := vg_Nper g) in *. set (p := at_ (vg_p g)). set (w := at_ (vg_w g)). set (f := at_ (vg_f g)).
    set (D := (at_ (vg_norm g) i * at_ (vg_norm g) j)%R).
    assert (Inner : forall a acc, (a < n)%nat -> length acc = 6%nat ->
      exists el, ofold (fun acc b =>
            do p_c <- aread (vg_p g) (j * n + b); do w_c <- aread (vg_w g) (j * n + b);
            do f_c <- aread (vg_f g) (j * n + b);
            do v <- vis_quad pot junk viaT ty r c p_c (p (i * n + a)%nat);
            Ok (map2 (fun acc x => acc + (f (i * n + a)%nat * (w (i * n + a)%nat * p (i * n + a)%nat)) * (f_c * (w_c * p_c)) * x / D)%R acc v))
          (seq 0 n) acc = Ok el /\ length el = 6%nat /\
        forall k, (k < 6)%nat -> at_ el k = (at_ acc k + sum (fun b =>
            f (i * n + a)%nat * w (i * n + a)%nat * p (i * n + a)%nat *
            (f (j * n + b)%nat * w (j * n + b)%nat * p (j * n + b)%nat) *
            at_ (vv (p (j * n + b)%nat) (p (i * n + a)%nat)) k) n / D)%R).
    { intros a acc Ha Hacc.
      destruct (ofold_inv (fun d el => length el = 6%nat /\
        forall k, (k < 6)%nat -> at_ el k = (at_ acc k + sum (fun b =>
            f (i * n + a)%nat * w (i * n + a)%nat * p (i * n + a)%nat *
            (f (j * n + b)%nat * w (j * n + b)%nat * p (j * n + b)%nat) *
            at_ (vv (p (j * n + b)%nat) (p (i * n + a)%nat)) k) (length d) / D)%R)
        (fun acc b =>
            do p_c <- aread (vg_p g) (j * n + b); do w_c <- aread (vg_w g) (j * n + b);
            do f_c <- aread (vg_f g) (j * n + b);
            do v <- vis_quad pot junk viaT ty r c p_c (p (i * n + a)%nat);
            Ok (map2 (fun acc x => acc + (f (i * n + a)%nat * (w (i * n + a)%nat * p (i * n + a)%nat)) * (f_c * (w_c * p_c)) * x / D)%R acc v))
        (seq 0 n) acc) as (el & E & L & H).
      - split; [ exact Hacc | ]. intros k Hk. cbn [length]. unfold sum. cbn. unfold Rdiv. ring.
      - intros d b rr s Hl (Ls & Hs).
        assert (Hb : b = length d /\ (b < n)%nat).
        { pose proof (f_equal (fun l => nth (length d) l 0%nat) Hl) as H0. cbn beta in H0.
          pose proof (f_equal (@length nat) Hl) as H1. rewrite seq_length, app_length in H1. cbn [length] in H1.
          rewrite seq_nth in H0 by lia. rewrite app_nth2, Nat.sub_diag in H0 by lia. cbn in H0. lia. }
        destruct Hb as [-> Hb]. set (b := length d) in *.
        assert (j * n + b < vg_Np g * n)%nat by (apply rm_lt; assumption).
        rewrite !areadn by lia. cbn [obind]. fold p w f.
        destruct (Hv (p (j * n + b)%nat) (p (i * n + a)%nat)) as [E L]. rewrite E. cbn [obind].
        eexists. split; [ reflexivity | ].
        split; [ apply (at_map2 _ s _ 0); [ exact Ls | exact L | lia ] | ].
        intros k Hk. rewrite (proj2 (at_map2 _ s (vv (p (j * n + b)%nat) (p (i * n + a)%nat)) k Ls L Hk)).
        rewrite Hs by exact Hk. rewrite app_length. cbn [length]. fold b. rewrite Nat.add_1_r, sum_S.
        unfold Rdiv. ring.
      - exists el. split; [ exact E | ]. split; [ exact L | ]. intros k Hk. rewrite H by exact Hk.
        rewrite seq_length. reflexivity. }
    destruct (ofold_inv (fun d el => length el = 6%nat /\
        forall k, (k < 6)%nat -> at_ el k = (sum (fun a => sum (fun b =>
            f (i * n + a)%nat * w (i * n + a)%nat * p (i * n + a)%nat *
            (f (j * n + b)%nat * w (j * n + b)%nat * p (j * n + b)%nat) *
            at_ (vv (p (j * n + b)%nat) (p (i * n + a)%nat)) k) n) (length d) / D)%R)
      (fun acc a =>
        do p_r <- aread (vg_p g) (i * n + a); do w_r <- aread (vg_w g) (i * n + a);
        do f_r <- aread (vg_f g) (i * n + a);
        ofold (fun acc b =>
            do p_c <- aread (vg_p g) (j * n + b); do w_c <- aread (vg_w g) (j * n + b);
            do f_c <- aread (vg_f g) (j * n + b);
            do v <- vis_quad pot junk viaT ty r c p_c p_r;
            Ok (map2 (fun acc x => acc + (f_r * (w_r * p_r)) * (f_c * (w_c * p_c)) * x / D)%R acc v))
          (seq 0 n) acc)
      (seq 0 n) six0) as (el & E & L & H).
    + split; [ reflexivity | ]. intros k Hk. cbn [length].
      unfold at_, six0, sum. cbn [seq map fold_right]. unfold Rdiv.
      do 6 (destruct k as [|k]; [ cbn [nth]; ring | ]). lia.
    + intros d a rr s Hl (Ls & Hs).
      assert (Ha : a = length d /\ (a < n)%nat).
      { pose proof (f_equal (fun l => nth (length d) l 0%nat) Hl) as H0. cbn beta in H0.
        pose proof (f_equal (@length nat) Hl) as H1. rewrite seq_length, app_length in H1. cbn [length] in H1.
        rewrite seq_nth in H0 by lia. rewrite app_nth2, Nat.sub_diag in H0 by lia. cbn in H0. lia. }
      destruct Ha as [-> Ha]. set (a := length d) in *.
      assert (i * n + a < vg_Np g * n)%nat by (apply rm_lt; assumption).
      rewrite !(areadn _ (i * n + a)%nat) by lia. cbn [obind]. fold p w f.
      destruct (Inner a s Ha Ls) as (el & E & Le & He). exists el. split; [ exact E | ]. split; [ exact Le | ].
      intros k Hk. rewrite He, Hs by exact Hk. rewrite app_length. cbn [length]. fold a. rewrite Nat.add_1_r, sum_S.
      unfold Rdiv. ring.
    + exists el. split; [ exact E | ]. split; [ exact L | ]. intros k Hk. rewrite H by exact Hk.
      rewrite seq_length. reflexivity.
Qed.

(* ---------- one channel: where the entries go ---------- *)
Lemma ofold_fst {A B X} (f : A -> X -> outcome A) l (a : A) (b : B) :
  ofold (fun V x => do w <- f (fst V) x; Ok (w, snd V)) l (a, b) = do w <- ofold f l a; Ok (w, b).
Proof.
  revert a; induction l as [|x l IH]; intros a; [ reflexivity | ]. cbn [ofold fst snd].
  destruct (f a x); cbn [obind]; try reflexivity. apply IH.
Qed.
Lemma ofold_snd {A B X} (f : B -> X -> outcome B) l (a : A) (b : B) :
  ofold (fun V x => do w <- f (snd V) x; Ok (fst V, w)) l (a, b) = do w <- ofold f l b; Ok (a, w).
Proof.
  revert b; induction l as [|x l IH]; intros b; [ reflexivity | ]. cbn [ofold fst snd].
  destruct (f b x); cbn [obind]; try reflexivity. apply IH.
Qed.

Lemma zwrite_nat {A} (a : list A) z n v : z = Z.of_nat n -> zwrite a z v = awrite a n v.
Proof. intros ->. unfold zwrite. replace (Z.of_nat n <? 0) with false by lia. rewrite Nat2Z.id. reflexivity. Qed.

Section Fill.
Variables (mid : bool) (pot : potmodel) (junk : R * R) (viaL viaT : bool) (ty : nat) (g : vgrid) (k : nat) (r c : pw).
Let N := vg_Np g.
Local Open Scope nat_scope.

Lemma fill_unco (val : nat -> nat -> R) Vu Vc :
  (forall i j, i < N -> j < N -> exists el, wp_elements mid pot junk viaT ty g r c i j = Ok el /\
      extract (L_2N r) (L_2N c) (J_2N r) (S_2N r) false el = Ok (val i j)) ->
  (k + 1) * (N * N) <= length Vu ->
  exists w, fill_channel mid pot junk viaL viaT false ty g (Z.of_nat k) r c (Vu, Vc) = Ok (w, Vc) /\
    length w = length Vu /\
    (forall i j, i < N -> j < N -> nth_error w (unco_addr N k i j) = Some (val i j)) /\
    (forall a, ~ (k * (N * N) <= a < (k + 1) * (N * N)) -> nth_error w a = nth_error Vu a).
Proof.
  intros Hel Hlen. unfold fill_channel. fold N.
  rewrite (ofold_ext _ (fun V (ij : nat * nat) => do w <- awrite (fst V) (unco_addr N k (fst ij) (snd ij)) (val (fst ij) (snd ij)); Ok (w, snd V))).
  2:{ intros [i j] V Hij. apply in_nest in Hij. destruct Hij as [Hi Hj]. cbn [fst snd].
      destruct (Hel i j Hi Hj) as (el & E1 & E2). rewrite E1. cbn [obind]. unfold write_elements. rewrite E2. cbn [obind].
      fold N. rewrite (zwrite_nat _ _ (unco_addr N k i j)); [ reflexivity | ]. unfold unco_addr, zn. lia. }
  rewrite (ofold_fst (fun (w : list R) (ij : nat * nat) => awrite w (unco_addr N k (fst ij) (snd ij)) (val (fst ij) (snd ij)))).
  destruct (scatter (fun ij : nat * nat => unco_addr N k (fst ij) (snd ij)) (fun ij => val (fst ij) (snd ij)) (nest N N) Vu)
    as (w & E & L & W & O).
  - intros [i j] Hij. apply in_nest in Hij. unfold unco_addr. cbn [fst snd].
    pose proof (rm_lt N N i j (proj1 Hij) (proj2 Hij)). nia.
  - intros [i j] [i' j'] H1 H2. apply in_nest in H1, H2. unfold unco_addr. cbn [fst snd]. intros E.
    assert (i * N + j = i' * N + j') by lia.
    destruct (rm_inj N i j i' j') as [-> ->]; [ tauto | tauto | assumption | reflexivity ].
  - rewrite E. cbn [obind]. exists w. split; [ reflexivity | ]. split; [ exact L | ]. split.
    + intros i j Hi Hj. apply (W (i, j)). apply in_nest. auto.
    + intros a Ha. apply O. intros [i j] Hij E'. apply in_nest in Hij. unfold unco_addr in E'. cbn [fst snd] in E'.
      pose proof (rm_lt N N i j (proj1 Hij) (proj2 Hij)). apply Ha. lia.
Qed.

Lemma coup_addr_split br i bc j : br < 2 -> bc < 2 -> i < N -> j < N ->
  k * (2 * N * (2 * N)) <= coup_addr N k br i bc j < (k + 1) * (2 * N * (2 * N)).
Proof.
  intros. unfold coup_addr.
  assert (br * N + i < 2 * N) by nia. assert (bc * N + j < 2 * N) by nia.
  pose proof (rm_lt (2 * N) (2 * N) (br * N + i) (bc * N + j)). nia.
Qed.
Lemma coup_addr_inj br i bc j br' i' bc' j' : br < 2 -> bc < 2 -> i < N -> j < N -> br' < 2 -> bc' < 2 -> i' < N -> j' < N ->
  coup_addr N k br i bc j = coup_addr N k br' i' bc' j' -> br = br' /\ i = i' /\ bc = bc' /\ j = j'.
Proof.
  intros. unfold coup_addr in *.
  destruct (rm_inj (2 * N) (br * N + i) (bc * N + j) (br' * N + i') (bc' * N + j')) as [E1 E2]; [ nia | nia | lia | ].
  apply rm_inj in E1; [ | assumption.. ]. apply rm_inj in E2; [ | assumption.. ]. tauto.
Qed.

Lemma fill_coup (val : nat -> nat -> nat -> nat -> R) Vu Vc :
  (forall i j, i < N -> j < N -> exists el, wp_elements mid pot junk viaT ty g r c i j = Ok el /\
     (if viaL then
        extract (J_2N r - 1) (J_2N r - 1) (J_2N r) (S_2N r) true el = Ok (val 0 i 0 j) /\
        extract (J_2N r - 1) (J_2N r + 1) (J_2N r) (S_2N r) true el = Ok (val 0 i 1 j) /\
        extract (J_2N r + 1) (J_2N r - 1) (J_2N r) (S_2N r) true el = Ok (val 1 i 0 j) /\
        extract (J_2N r + 1) (J_2N r + 1) (J_2N r) (S_2N r) true el = Ok (val 1 i 1 j)
      else aread el 2 = Ok (val 0 i 0 j) /\ aread el 3 = Ok (val 0 i 1 j) /\ aread el 4 = Ok (val 1 i 0 j) /\
           aread el 5 = Ok (val 1 i 1 j))) ->
  (k + 1) * (2 * N * (2 * N)) <= length Vc ->
  exists w, fill_channel mid pot junk viaL viaT true ty g (Z.of_nat k) r c (Vu, Vc) = Ok (Vu, w) /\
    length w = length Vc /\
    (forall br i bc j, br < 2 -> bc < 2 -> i < N -> j < N -> nth_error w (coup_addr N k br i bc j) = Some (val br i bc j)) /\
    (forall a, ~ (k * (2 * N * (2 * N)) <= a < (k + 1) * (2 * N * (2 * N))) -> nth_error w a = nth_error Vc a).
Proof.
  intros Hel Hlen. unfold fill_channel. fold N.
  set (addr := fun x : (nat * nat) * (nat * nat) => coup_addr N k (fst (snd x)) (fst (fst x)) (snd (snd x)) (snd (fst x))).
  set (vl := fun x : (nat * nat) * (nat * nat) => val (fst (snd x)) (fst (fst x)) (snd (snd x)) (snd (fst x))).
  set (g4 := fun ij : nat * nat => map (fun ab : nat * nat => (ij, ab)) [(0, 0); (0, 1); (1, 0); (1, 1)]).
  rewrite (ofold_ext _ (fun V (ij : nat * nat) => do w <- ofold (fun a x => awrite a (addr x) (vl x)) (g4 ij) (snd V); Ok (fst V, w))).
  2:{ intros [i j] V Hij. apply in_nest in Hij. destruct Hij as [Hi Hj]. cbn [fst snd].
      destruct (Hel i j Hi Hj) as (el & E1 & E2). rewrite E1. cbn [obind]. unfold write_elements. fold N.
      assert (Z1 : forall A (a : list A) v, zwrite a (Z.of_nat k * 4 * zn N * zn N + zn i * 2 * zn N + zn j)%Z v = awrite a (coup_addr N k 0 i 0 j) v)
        by (intros; apply zwrite_nat; unfold coup_addr, zn; nia).
      assert (Z2 : forall A (a : list A) v, zwrite a (Z.of_nat k * 4 * zn N * zn N + zn i * 2 * zn N + zn j + zn N)%Z v = awrite a (coup_addr N k 0 i 1 j) v)
        by (intros; apply zwrite_nat; unfold coup_addr, zn; nia).
      assert (Z3 : forall A (a : list A) v, zwrite a (Z.of_nat k * 4 * zn N * zn N + (zn i + zn N) * 2 * zn N + zn j)%Z v = awrite a (coup_addr N k 1 i 0 j) v)
        by (intros; apply zwrite_nat; unfold coup_addr, zn; nia).
      assert (Z4 : forall A (a : list A) v, zwrite a (Z.of_nat k * 4 * zn N * zn N + (zn i + zn N) * 2 * zn N + zn j + zn N)%Z v = awrite a (coup_addr N k 1 i 1 j) v)
        by (intros; apply zwrite_nat; unfold coup_addr, zn; nia).
      unfold g4, addr, vl. cbn [map ofold fst snd].
      destruct viaL; destruct E2 as (-> & -> & -> & ->); cbn [obind];
        rewrite Z1; (destruct (awrite (snd V) _ _); cbn [obind]; [ | reflexivity.. ]);
        rewrite Z2; (destruct (awrite _ _ _); cbn [obind]; [ | reflexivity.. ]);
        rewrite Z3; (destruct (awrite _ _ _); cbn [obind]; [ | reflexivity.. ]);
        rewrite Z4; (destruct (awrite _ _ _); reflexivity). }
  rewrite (ofold_snd (fun (w : list R) (ij : nat * nat) => ofold (fun a x => awrite a (addr x) (vl x)) (g4 ij) w)).
  rewrite (ofold_flat _ (fun a x => awrite a (addr x) (vl x)) g4) by reflexivity.
  assert (In4 : forall i j a b, In ((i, j), (a, b)) (flat_map g4 (nest N N)) <-> (i < N /\ j < N) /\ a < 2 /\ b < 2).
  { intros i j a b. rewrite in_flat_map. split.
    - intros ([i' j'] & H1 & H2). apply in_nest in H1. cbn in H2.
      destruct H2 as [H2|[H2|[H2|[H2|[]]]]]; injection H2 as <- <- <- <-; lia.
    - intros (H1 & Ha & Hb). exists (i, j). split; [ apply in_nest; exact H1 | ]. cbn.
      destruct a as [|[|]]; destruct b as [|[|]]; try lia; auto. }
  destruct (scatter addr vl (flat_map g4 (nest N N)) Vc) as (w & E & L & W & O).
  - intros [[i j] [a b]] Hx. apply In4 in Hx. unfold addr. cbn [fst snd].
    pose proof (coup_addr_split a i b j). lia.
  - intros [[i j] [a b]] [[i' j'] [a' b']] H1 H2. apply In4 in H1, H2. unfold addr, vl. cbn [fst snd]. intros E.
    apply coup_addr_inj in E; try tauto. destruct E as (-> & -> & -> & ->). reflexivity.
  - rewrite E. cbn [obind]. exists w. split; [ reflexivity | ]. split; [ exact L | ]. split.
    + intros a i b j Ha Hb Hi Hj. apply (W ((i, j), (a, b))). apply In4. auto.
    + intros a Ha. apply O. intros [[i j] [x y]] Hx E'. apply In4 in Hx. unfold addr in E'. cbn [fst snd] in E'.
      pose proof (coup_addr_split x i y j). apply Ha. lia.
Qed.
End Fill.

(* ---------- linearity of the packet average ---------- *)
Lemma packet_ext mid g v w i j : (forall x y, v x y = w x y) -> packet mid g v i j = packet mid g w i j.
Proof.
  intros H. unfold packet, packet_midpoint, packet_quadrature. destruct mid; [ rewrite H; reflexivity | ].
  f_equal. apply sum_ext. intros a _. apply sum_ext. intros b _. rewrite H. reflexivity.
Qed.
Lemma packet_opp mid g v i j : packet mid g (fun x y => - v x y)%R i j = (- packet mid g v i j)%R.
Proof.
  unfold packet, packet_midpoint, packet_quadrature. destruct mid; [ unfold Rdiv; ring | ].
  rewrite (sum_ext _ (fun a => (-1) * sum (fun b => at_ (vg_f g) (i * vg_Nper g + a)%nat * at_ (vg_w g) (i * vg_Nper g + a)%nat *
    at_ (vg_p g) (i * vg_Nper g + a)%nat * (at_ (vg_f g) (j * vg_Nper g + b)%nat * at_ (vg_w g) (j * vg_Nper g + b)%nat *
    at_ (vg_p g) (j * vg_Nper g + b)%nat) * v (at_ (vg_p g) (j * vg_Nper g + b)%nat) (at_ (vg_p g) (i * vg_Nper g + a)%nat)) (vg_Nper g))%R).
  - rewrite sum_scal. unfold Rdiv. ring.
  - intros a _. rewrite <- sum_scal. apply sum_ext. intros b _. ring.
Qed.
Lemma element_packet mid g (v : R -> R -> nat -> R) el L L' S J i j :
  (forall k, (k < 6)%nat -> el k = packet mid g (fun x y => v x y k) i j) ->
  element el L L' S J = packet mid g (fun x y => element (v x y) L L' S J) i j.
Proof.
  intros H. unfold element. destruct (S =? 0); [ apply H; lia | ]. destruct (L =? L').
  - destruct (L =? J); [ apply H; lia | ]. destruct (L =? J - 1); apply H; lia.
  - destruct (L <? L'); rewrite packet_opp, H by lia; reflexivity.
Qed.
