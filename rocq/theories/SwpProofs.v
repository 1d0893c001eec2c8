From Coq Require Import Reals Lra Permutation Sorted.
From Verif Require Import Common ArrayLib PWModel PWSpec SwpModel.
Open Scope nat_scope.

(* ---------- reads and writes in the middle of a list ---------- *)
Lemma aread_mid {A} (a : list A) x b : aread (a ++ x :: b) (length a) = Ok x.
Proof. unfold aread. rewrite nth_error_app2, Nat.sub_diag by lia. reflexivity. Qed.
Lemma awrite_mid {A} (a : list A) x b v : awrite (a ++ x :: b) (length a) v = Ok (a ++ v :: b).
Proof.
  unfold awrite. rewrite app_length. cbn [length].
  destruct (Nat.ltb_spec (length a) (length a + S (length b))); [ | lia ].
  rewrite firstn_app, Nat.sub_diag, firstn_all. cbn [firstn]. rewrite app_nil_r.
  replace (S (length a)) with (length a + 1) by lia.
  rewrite skipn_app. rewrite skipn_all2 by lia.
  replace (length a + 1 - length a) with 1 by lia. reflexivity.
Qed.
Lemma zadd_mid a x b v i : i = Z.of_nat (length a) -> zadd (a ++ x :: b) i v = Ok (a ++ (x + v)%R :: b).
Proof.
  intros ->. unfold zadd, zread, zwrite.
  destruct (Z.ltb_spec (Z.of_nat (length a)) 0); [ lia | ].
  rewrite Nat2Z.id, aread_mid. cbn [obind]. apply awrite_mid.
Qed.

(* ---------- C29 ---------- *)
Lemma tri_step k : (((k + 1) * (k + 1 - 1)) / 2 = k * (k - 1) / 2 + k)%Z.
Proof. replace ((k + 1) * (k + 1 - 1))%Z with (k * (k - 1) + k * 2)%Z by lia. apply Z.div_add; lia. Qed.

Lemma packed_c N r c : packed N r (c + 1) = (packed N r c + 1)%Z.
Proof. unfold packed. lia. Qed.
Lemma packed_r N r : packed N (r + 1) (r + 1) = (packed N r r + (N - r))%Z.
Proof.
  unfold packed. pose proof (tri_step (N - r - 1)) as H.
  replace (N - r - 1 + 1)%Z with (N - r)%Z in H by lia.
  replace (N - (r + 1))%Z with (N - r - 1)%Z by lia. lia.
Qed.
Lemma packed_0 N : packed N 0 0 = 0%Z.
Proof. unfold packed. rewrite !Z.sub_0_r. lia. Qed.

Section Full.
Variables (N baseV : nat) (H0 V : list R).
Hypothesis LH : length H0 = N.
Hypothesis LV : baseV + N * N <= length V.

Lemma inner_row r base m : forall c A xs B, c + m <= N -> r < N -> length xs = m ->
  (base + packed (zn N) (zn r) (zn c) = Z.of_nat (length A))%Z ->
  ofold (fun H c => do v <- aread V (baseV + r * N + c);
                    zadd H (base + packed (zn N) (zn r) (zn c))%Z v) (seq c m) (A ++ xs ++ B)
  = Ok (A ++ map (fun p => (fst p + nth (baseV + r * N + snd p) V 0)%R) (combine xs (seq c m)) ++ B).
Proof.
  induction m as [|m IH]; intros c A xs B Hc Hr Hx Hb.
  - destruct xs; [ | discriminate ]. reflexivity.
  - destruct xs as [|x xs]; [ discriminate | ]. cbn [seq ofold combine map fst snd app].
    destruct (aread_ok V (baseV + r * N + c)) as (v & Ev & Nv); [ nia | ].
    rewrite Ev. cbn [obind]. rewrite (zadd_mid A x (xs ++ B)) by exact Hb. cbn [obind].
    rewrite (nth_error_nth _ _ 0%R Nv).
    change (A ++ (x + v)%R :: xs ++ B) with (A ++ [(x + v)%R] ++ xs ++ B). rewrite app_assoc.
    rewrite (IH (S c)).
    + rewrite <- app_assoc. reflexivity.
    + lia. + exact Hr. + cbn in Hx; lia.
    + rewrite app_length. cbn [length].
      replace (zn (S c)) with (zn c + 1)%Z by (unfold zn; lia). rewrite packed_c. lia.
Qed.

Definition spec_row r := map (fun c => (nth (baseV + r * N + c) V 0 + (if Nat.eqb r c then nth r H0 0 else 0))%R)
                             (seq r (N - r)).

Lemma combine_zeros r c m h : r < c ->
  map (fun p : R * nat => (fst p + nth (baseV + r * N + snd p) V 0)%R) (combine (repeat 0%R m) (seq c m))
  = map (fun c => (nth (baseV + r * N + c) V 0 + (if Nat.eqb r c then h else 0))%R) (seq c m).
Proof.
  revert c; induction m as [|m IH]; intros c Hc; [ reflexivity | ].
  cbn [repeat seq combine map fst snd].
  destruct (Nat.eqb_spec r c); [ lia | ]. f_equal; [ lra | ]. apply IH; lia.
Qed.

Lemma outer_rows base m : forall r A k B, r + m = N ->
  (base + packed (zn N) (zn r) (zn r) = Z.of_nat (length A))%Z ->
  k = length (flat_map spec_row (seq r m)) ->
  ofold (fun H r =>
      do h0 <- aread H0 r;
      do H <- zadd H (base + packed (zn N) (zn r) (zn r))%Z h0;
      ofold (fun H c =>
          do v <- aread V (baseV + r * N + c);
          zadd H (base + packed (zn N) (zn r) (zn c))%Z v)
        (seq r (N - r)) H) (seq r m) (A ++ repeat 0%R k ++ B)
  = Ok (A ++ flat_map spec_row (seq r m) ++ B).
Proof.
  induction m as [|m IH]; intros r A k B Hr Hb Hk.
  - cbn in Hk. subst k. reflexivity.
  - cbn [seq flat_map] in Hk. rewrite app_length in Hk.
    assert (Lr : length (spec_row r) = N - r) by (unfold spec_row; rewrite map_length, seq_length; reflexivity).
    cbn [seq ofold].
    destruct (aread_ok H0 r) as (h & Eh & Nh); [ lia | ]. rewrite Eh. cbn [obind].
    destruct (N - r) as [|w] eqn:Ew; [ lia | ].
    rewrite Lr in Hk. remember (length (flat_map spec_row (seq (S r) m))) as k'. subst k.
    cbn [Nat.add repeat app].
    rewrite (zadd_mid A 0%R (repeat 0%R (w + k') ++ B)) by exact Hb. cbn [obind].
    rewrite repeat_app, <- app_assoc.
    change (A ++ (0 + h)%R :: repeat 0%R w ++ repeat 0%R k' ++ B)
      with (A ++ ((0 + h)%R :: repeat 0%R w) ++ repeat 0%R k' ++ B).
    rewrite (inner_row r base (S w) r A).
    + cbn [obind flat_map].
      assert (E : map (fun p : R * nat => (fst p + nth (baseV + r * N + snd p) V 0)%R)
                 (combine ((0 + h)%R :: repeat 0%R w) (seq r (S w))) = spec_row r).
      { unfold spec_row. rewrite Ew. cbn [seq combine map fst snd]. rewrite Nat.eqb_refl.
        rewrite (nth_error_nth _ _ 0%R Nh). f_equal; [ lra | ]. apply combine_zeros; lia. }
      rewrite E. rewrite <- app_assoc. rewrite (app_assoc A (spec_row r)).
      rewrite (IH (S r)).
      * rewrite <- app_assoc. reflexivity.
      * lia.
      * rewrite app_length, Lr. replace (zn (S r)) with (zn r + 1)%Z by (unfold zn; lia).
        rewrite packed_r. unfold zn in *. lia.
      * exact Heqk'.
    + lia. + lia. + cbn [length]. rewrite repeat_length. reflexivity. + exact Hb.
Qed.

Lemma full_hamiltonian_spec pre post :
  full_hamiltonian (pre ++ repeat 0%R (length (flat_map spec_row (seq 0 N))) ++ post) (Z.of_nat (length pre))
                   H0 V baseV N
  = Ok (pre ++ flat_map spec_row (seq 0 N) ++ post).
Proof. unfold full_hamiltonian. apply outer_rows; [ lia | | reflexivity ]. cbn. rewrite packed_0. lia. Qed.

Lemma spec_len_gen m r : r + m = N -> 2 * length (flat_map spec_row (seq r m)) = m * (m + 1).
Proof.
  revert r; induction m as [|m IH]; intros r Hr; [ reflexivity | ].
  cbn [seq flat_map]. rewrite app_length. unfold spec_row at 1. rewrite map_length, seq_length.
  specialize (IH (S r) ltac:(lia)). nia.
Qed.
Lemma spec_len : length (flat_map spec_row (seq 0 N)) = N * (N + 1) / 2.
Proof.
  pose proof (spec_len_gen N 0 eq_refl) as H. rewrite <- H. rewrite Nat.mul_comm, Nat.div_mul; lia.
Qed.
End Full.

(* ---------- free Hamiltonian ---------- *)
Lemma free_hamiltonian_ok Np p H0 base :
  length p = Np + 1 -> base + Np <= length H0 ->
  exists H', free_hamiltonian Np p H0 base = Ok H' /\ length H' = length H0 /\
    (forall i, i < Np -> nth_error H' (base + i) =
        Some ((nth (i + 1) p 0 * nth (i + 1) p 0 + nth (i + 1) p 0 * nth i p 0 + nth i p 0 * nth i p 0) / (6 * mu23))%R) /\
    (forall j, j < base \/ base + Np <= j -> nth_error H' j = nth_error H0 j).
Proof.
  intros Lp LH. unfold free_hamiltonian.
  set (val := fun i => ((nth (i + 1) p 0 * nth (i + 1) p 0 + nth (i + 1) p 0 * nth i p 0 + nth i p 0 * nth i p 0) / (6 * mu23))%R).
  destruct (ofold_inv (fun d s => length s = length H0 /\
       (forall i, In i d -> nth_error s (base + i) = Some (val i)) /\
       (forall j, j < base \/ base + Np <= j -> nth_error s j = nth_error H0 j))
    (fun H i => do p1 <- aread p i; do p2 <- aread p (i + 1);
      awrite H (base + i) ((p2 * p2 + p2 * p1 + p1 * p1) / (6 * mu23))%R)
    (seq 0 Np) H0) as (s & E & L & W & O).
  - split; [ reflexivity | ]. split; [ intros i [] | reflexivity ].
  - intros d i r s Hl (L & W & O).
    assert (Hi : In i (seq 0 Np)) by (rewrite Hl; apply in_or_app; right; left; reflexivity).
    apply in_seq in Hi.
    destruct (aread_ok p i) as (p1 & E1 & N1); [ lia | ].
    destruct (aread_ok p (i + 1)) as (p2 & E2 & N2); [ lia | ].
    rewrite E1, E2. cbn [obind].
    edestruct (awrite_ok s (base + i)) as (s' & Es & Ls & Ws & Os); [ | rewrite Es ]; [ lia | ].
    eexists; split; [ reflexivity | ]. split; [ congruence | ]. split.
    + intros k Hk. apply in_app_iff in Hk. destruct (Nat.eq_dec k i) as [->|Hne].
      * rewrite Ws. unfold val. rewrite (nth_error_nth _ _ 0%R N1), (nth_error_nth _ _ 0%R N2). reflexivity.
      * rewrite Os by lia. destruct Hk as [Hk|[->|[]]]; [ apply W, Hk | congruence ].
    + intros j Hj. rewrite Os by lia. apply O, Hj.
  - exists s. split; [ exact E | ]. split; [ exact L | ]. split; [ | exact O ].
    intros i Hi. apply W, in_seq. lia.
Qed.

(* ---------- C30 ---------- *)
Section Reorder.
Context {A : Type}.
Variables (Np : nat) (vals vecs : list A).
Hypothesis Lv : length vals = 2 * Np.
Hypothesis Lw : length vecs = 4 * Np * Np.
(* source position of slot k *)
Definition src (k : nat) : nat := if k <? Np then 2 * k else 2 * (k - Np) + 1.
Lemma src_lo i : i < Np -> src i = 2 * i.
Proof. unfold src. intros. destruct (Nat.ltb_spec i Np); lia. Qed.
Lemma src_hi i : src (i + Np) = 2 * i + 1.
Proof. unfold src. destruct (Nat.ltb_spec (i + Np) Np); lia. Qed.

Lemma inner_vecs i bw : i < Np -> length bw = 4 * Np * Np ->
  exists bw', ofold (fun bw j =>
          do x <- aread vecs (j * (2 * Np) + 2 * i); do bw <- awrite bw (j * (2 * Np) + i) (Some x);
          do y <- aread vecs (j * (2 * Np) + 2 * i + 1); awrite bw (j * (2 * Np) + i + Np) (Some y))
        (seq 0 (2 * Np)) bw = Ok bw' /\ length bw' = 4 * Np * Np /\
   (forall j, j < 2 * Np -> nth_error bw' (j * (2 * Np) + i) = option_map Some (nth_error vecs (j * (2 * Np) + src i)) /\
              nth_error bw' (j * (2 * Np) + (i + Np)) = option_map Some (nth_error vecs (j * (2 * Np) + src (i + Np)))) /\
   (forall j k, j < 2 * Np -> k < 2 * Np -> k <> i -> k <> i + Np ->
       nth_error bw' (j * (2 * Np) + k) = nth_error bw (j * (2 * Np) + k)).
Proof.
  intros Hi Lb.
  destruct (ofold_inv (fun d s => length s = 4 * Np * Np /\
     (forall j, In j d -> nth_error s (j * (2 * Np) + i) = option_map Some (nth_error vecs (j * (2 * Np) + src i)) /\
              nth_error s (j * (2 * Np) + (i + Np)) = option_map Some (nth_error vecs (j * (2 * Np) + src (i + Np)))) /\
     (forall j k, j < 2 * Np -> k < 2 * Np -> k <> i -> k <> i + Np ->
       nth_error s (j * (2 * Np) + k) = nth_error bw (j * (2 * Np) + k)))
   (fun bw j =>
          do x <- aread vecs (j * (2 * Np) + 2 * i); do bw <- awrite bw (j * (2 * Np) + i) (Some x);
          do y <- aread vecs (j * (2 * Np) + 2 * i + 1); awrite bw (j * (2 * Np) + i + Np) (Some y))
   (seq 0 (2 * Np)) bw) as (s & E & L & W & O).
  - split; [ exact Lb | ]. split; [ intros j [] | reflexivity ].
  - intros d j r s Hl (L & W & O).
    assert (Hj : In j (seq 0 (2 * Np))) by (rewrite Hl; apply in_or_app; right; left; reflexivity).
    assert (Hnd : ~ In j d).
    { intros Hd. pose proof (seq_NoDup (2 * Np) 0) as ND. rewrite Hl in ND.
      apply NoDup_remove_2 in ND. apply ND, in_or_app. left; exact Hd. }
    apply in_seq in Hj.
    assert (B : forall k, k < 2 * Np -> j * (2 * Np) + k < 4 * Np * Np).
    { intros k Hk. pose proof (rm_lt (2 * Np) (2 * Np) j k ltac:(lia) Hk). lia. }
    destruct (aread_ok vecs (j * (2 * Np) + 2 * i)) as (x & Ex & Nx); [ pose proof (B (2 * i)); lia | ].
    rewrite Ex. cbn [obind].
    edestruct (awrite_ok s (j * (2 * Np) + i)) as (s1 & E1 & L1 & W1 & O1); [ | rewrite E1 ];
      [ pose proof (B i); lia | ]. cbn [obind].
    destruct (aread_ok vecs (j * (2 * Np) + 2 * i + 1)) as (y & Ey & Ny); [ pose proof (B (2 * i + 1)); lia | ].
    rewrite Ey. cbn [obind].
    edestruct (awrite_ok s1 (j * (2 * Np) + i + Np)) as (s2 & E2 & L2 & W2 & O2); [ | rewrite E2 ];
      [ pose proof (B (i + Np)); lia | ].
    eexists; split; [ reflexivity | ]. split; [ congruence | ].
    rewrite src_lo in * by lia. rewrite src_hi in *. split.
    + intros j' Hj'. apply in_app_iff in Hj'.
      assert (Hcase : j' = j \/ In j' d) by (destruct Hj' as [?|[?|[]]]; auto). clear Hj'.
      destruct Hcase as [->|Hd].
      * split.
        -- rewrite O2 by lia. rewrite W1, Nx. reflexivity.
        -- replace (j * (2 * Np) + (i + Np)) with (j * (2 * Np) + i + Np) by lia. rewrite W2.
           replace (j * (2 * Np) + (2 * i + 1)) with (j * (2 * Np) + 2 * i + 1) by lia. rewrite Ny. reflexivity.
      * assert (Hne : j' <> j) by (intros ->; contradiction).
        destruct (W j' Hd) as [Wa Wb]. split.
        -- rewrite O2, O1; [ exact Wa | | ]; intros He;
             [ destruct (rm_inj (2 * Np) j' i j i) | destruct (rm_inj (2 * Np) j' i j (i + Np)) ]; lia.
        -- rewrite O2, O1; [ exact Wb | | ]; intros He;
             [ destruct (rm_inj (2 * Np) j' (i + Np) j i) | destruct (rm_inj (2 * Np) j' (i + Np) j (i + Np)) ]; lia.
    + intros j' k Hj' Hk Hki Hkn. rewrite O2, O1; [ apply O; assumption | | ]; intros He;
        [ destruct (rm_inj (2 * Np) j' k j i) | destruct (rm_inj (2 * Np) j' k j (i + Np)) ]; lia.
  - exists s. split; [ exact E | ]. split; [ exact L | ]. split; [ | exact O ].
    intros j Hj. apply W, in_seq. lia.
Qed.

Lemma reorder_spec : exists vals' vecs', reorder Np vals vecs = Ok (vals', vecs') /\
  length vals' = 2 * Np /\ length vecs' = 4 * Np * Np /\
  (forall k, k < 2 * Np -> nth_error vals' k = nth_error vals (src k)) /\
  (forall j k, j < 2 * Np -> k < 2 * Np ->
      nth_error vecs' (j * (2 * Np) + k) = nth_error vecs (j * (2 * Np) + src k)).
Proof.
  unfold reorder.
  destruct (ofold_inv (fun d (b : list (option A) * list (option A)) =>
     length (fst b) = 2 * Np /\ length (snd b) = 4 * Np * Np /\
     (forall i, In i d -> nth_error (fst b) i = option_map Some (nth_error vals (src i)) /\
                          nth_error (fst b) (i + Np) = option_map Some (nth_error vals (src (i + Np)))) /\
     (forall i j, In i d -> j < 2 * Np ->
        nth_error (snd b) (j * (2 * Np) + i) = option_map Some (nth_error vecs (j * (2 * Np) + src i)) /\
        nth_error (snd b) (j * (2 * Np) + (i + Np)) = option_map Some (nth_error vecs (j * (2 * Np) + src (i + Np)))))
   (fun (b : list (option A) * list (option A)) i =>
      do x <- aread vals (2 * i); do bv <- awrite (fst b) i (Some x);
      do y <- aread vals (2 * i + 1); do bv <- awrite bv (i + Np) (Some y);
      do bw <- ofold (fun bw j =>
          do x <- aread vecs (j * (2 * Np) + 2 * i); do bw <- awrite bw (j * (2 * Np) + i) (Some x);
          do y <- aread vecs (j * (2 * Np) + 2 * i + 1); awrite bw (j * (2 * Np) + i + Np) (Some y))
        (seq 0 (2 * Np)) (snd b);
      Ok (bv, bw)) (seq 0 Np) (repeat None (2 * Np), repeat None (4 * Np * Np))) as (b & Eb & L1 & L2 & Wv & Ww).
  - cbn [fst snd]. rewrite !repeat_length. repeat split; try reflexivity; intros; contradiction.
  - intros d i r [bv bw] Hl (L1 & L2 & Wv & Ww). cbn [fst snd] in *.
    assert (Hi : In i (seq 0 Np)) by (rewrite Hl; apply in_or_app; right; left; reflexivity).
    assert (Hdn : forall k, In k d -> k < Np).
    { intros k Hk. assert (In k (seq 0 Np)) as Hk' by (rewrite Hl; apply in_or_app; left; exact Hk).
      apply in_seq in Hk'. lia. }
    apply in_seq in Hi.
    destruct (aread_ok vals (2 * i)) as (x & Ex & Nx); [ lia | ]. rewrite Ex. cbn [obind].
    edestruct (awrite_ok bv i) as (b1 & E1 & Lb1 & W1 & O1); [ | rewrite E1 ]; [ lia | ]. cbn [obind].
    destruct (aread_ok vals (2 * i + 1)) as (y & Ey & Ny); [ lia | ]. rewrite Ey. cbn [obind].
    edestruct (awrite_ok b1 (i + Np)) as (b2 & E2 & Lb2 & W2 & O2); [ | rewrite E2 ]; [ lia | ]. cbn [obind].
    destruct (inner_vecs i bw ltac:(lia) L2) as (bw' & Ew & Lbw & Ww' & Ow). rewrite Ew. cbn [obind].
    eexists; split; [ reflexivity | ]. cbn [fst snd]. split; [ congruence | ]. split; [ exact Lbw | ]. split.
    + intros k Hk. apply in_app_iff in Hk. destruct (Nat.eq_dec k i) as [->|Hne].
      * rewrite src_lo, src_hi by lia. split; [ rewrite O2, W1, Nx by lia; reflexivity | rewrite W2, Ny; reflexivity ].
      * destruct Hk as [Hk|[->|[]]]; [ | congruence ]. specialize (Hdn k Hk). destruct (Wv k Hk) as [Wa Wb].
        split; rewrite O2, O1 by lia; assumption.
    + intros k j Hk Hj. apply in_app_iff in Hk. destruct (Nat.eq_dec k i) as [->|Hne].
      * apply Ww', Hj.
      * destruct Hk as [Hk|[->|[]]]; [ | congruence ]. specialize (Hdn k Hk). destruct (Ww k j Hk Hj) as [Wa Wb].
        split; rewrite Ow by lia; assumption.
  - rewrite Eb. cbn [obind].
    assert (Bv : forall k, k < 2 * Np -> exists x, nth_error (fst b) k = Some (Some x) /\ nth_error vals (src k) = Some x).
    { intros k Hk. assert (src k < length vals) as Hs by (unfold src; destruct (Nat.ltb_spec k Np); lia).
      destruct (aread_ok _ _ Hs) as (x & _ & Nx). exists x. split; [ | exact Nx ].
      destruct (Nat.ltb_spec k Np) as [Hlt|Hge].
      - destruct (Wv k ltac:(apply in_seq; lia)) as [Wa _]. rewrite Wa, Nx. reflexivity.
      - destruct (Wv (k - Np) ltac:(apply in_seq; lia)) as [_ Wb].
        replace (k - Np + Np) with k in Wb by lia. rewrite Wb, Nx. reflexivity. }
    assert (Bw : forall j k, j < 2 * Np -> k < 2 * Np ->
        exists x, nth_error (snd b) (j * (2 * Np) + k) = Some (Some x) /\ nth_error vecs (j * (2 * Np) + src k) = Some x).
    { intros j k Hj Hk. assert (src k < 2 * Np) as Hs by (unfold src; destruct (Nat.ltb_spec k Np); lia).
      pose proof (rm_lt (2 * Np) (2 * Np) j (src k) Hj Hs) as Hb.
      destruct (aread_ok vecs (j * (2 * Np) + src k)) as (x & _ & Nx); [ lia | ]. exists x. split; [ | exact Nx ].
      destruct (Nat.ltb_spec k Np) as [Hlt|Hge].
      - destruct (Ww k j ltac:(apply in_seq; lia) Hj) as [Wa _]. rewrite Wa, Nx. reflexivity.
      - destruct (Ww (k - Np) j ltac:(apply in_seq; lia) Hj) as [_ Wb].
        replace (k - Np + Np) with k in Wb by lia. rewrite Wb, Nx. reflexivity. }
    destruct (ofold_inv (fun d s => length s = 2 * Np /\ forall k, In k d -> nth_error s k = nth_error vals (src k))
      (fun a i => do o <- aread (fst b) i; match o with Some x => awrite a i x | None => UB end)
      (seq 0 (2 * Np)) vals) as (v' & Ev & Lv' & Hv').
    { split; [ exact Lv | intros k [] ]. }
    { intros d k r s Hl (Ls & Hs).
      assert (Hk : In k (seq 0 (2 * Np))) by (rewrite Hl; apply in_or_app; right; left; reflexivity).
      apply in_seq in Hk. destruct (Bv k ltac:(lia)) as (x & Nx & Sx).
      rewrite (aread_some _ _ _ Nx). cbn [obind].
      destruct (awrite_ok s k x) as (s' & Es & Ls' & W & O); [ lia | ]. exists s'. split; [ exact Es | ].
      split; [ congruence | ]. intros k' Hk'. apply in_app_iff in Hk'. destruct (Nat.eq_dec k' k) as [->|Hne].
      - rewrite W, Sx. reflexivity.
      - rewrite O by exact Hne. destruct Hk' as [Hk'|[->|[]]]; [ apply Hs, Hk' | congruence ]. }
    rewrite Ev. cbn [obind].
    destruct (ofold_inv (fun d s => length s = 4 * Np * Np /\
         forall j k, In (j, k) d -> nth_error s (j * (2 * Np) + k) = nth_error vecs (j * (2 * Np) + src k))
      (fun a ij => do o <- aread (snd b) (fst ij * (2 * Np) + snd ij);
                      match o with Some x => awrite a (fst ij * (2 * Np) + snd ij) x | None => UB end)
      (nest (2 * Np) (2 * Np)) vecs) as (w' & Ew & Lw' & Hw').
    { split; [ exact Lw | intros j k [] ]. }
    { intros d [j k] r s Hl (Ls & Hs). cbn [fst snd].
      assert (Hk : In (j, k) (nest (2 * Np) (2 * Np))) by (rewrite Hl; apply in_or_app; right; left; reflexivity).
      assert (Hdn : forall j' k', In (j', k') d -> j' < 2 * Np /\ k' < 2 * Np).
      { intros j' k' Hd. apply in_nest. rewrite Hl. apply in_or_app. left; exact Hd. }
      apply in_nest in Hk. destruct Hk as [Hj Hk]. destruct (Bw j k Hj Hk) as (x & Nx & Sx).
      rewrite (aread_some _ _ _ Nx). cbn [obind].
      pose proof (rm_lt (2 * Np) (2 * Np) j k Hj Hk) as Hb.
      destruct (awrite_ok s (j * (2 * Np) + k) x) as (s' & Es & Ls' & W & O); [ lia | ].
      exists s'. split; [ exact Es | ]. split; [ congruence | ].
      intros j' k' Hk'. apply in_app_iff in Hk'.
      destruct (Nat.eq_dec (j' * (2 * Np) + k') (j * (2 * Np) + k)) as [He|Hne].
      - assert (j' < 2 * Np /\ k' < 2 * Np) as [Hj2 Hk2].
        { destruct Hk' as [Hd|[Hd|[]]]; [ apply Hdn, Hd | injection Hd as <- <-; auto ]. }
        destruct (rm_inj (2 * Np) j' k' j k Hk2 Hk He) as [-> ->]. rewrite W, Sx. reflexivity.
      - rewrite O by exact Hne. destruct Hk' as [Hk'|[Hk'|[]]]; [ apply Hs, Hk' | congruence ]. }
    rewrite Ew. cbn [obind]. exists v', w'. split; [ reflexivity | ]. split; [ exact Lv' | ]. split; [ exact Lw' | ].
    split.
    + intros k Hk. apply Hv', in_seq. lia.
    + intros j k Hj Hk. apply Hw', in_nest. auto.
Qed.
End Reorder.

Lemma src_perm Np : Permutation (map (src Np) (seq 0 (2 * Np))) (seq 0 (2 * Np)).
Proof.
  apply NoDup_Permutation_bis.
  - assert (G : forall l, NoDup l -> (forall x, In x l -> x < 2 * Np) -> NoDup (map (src Np) l)).
    { induction 1 as [|x l Hx ND IH]; intros Hb; cbn [map]; constructor.
      - rewrite in_map_iff. intros (y & Hy & Hin).
        assert (y = x); [ | subst; contradiction ].
        pose proof (Hb y (or_intror Hin)). pose proof (Hb x (or_introl eq_refl)).
        unfold src in Hy. destruct (Nat.ltb_spec y Np), (Nat.ltb_spec x Np); lia.
      - apply IH. intros y Hy. apply Hb. right; exact Hy. }
    apply G; [ apply seq_NoDup | ]. intros x Hx. apply in_seq in Hx. lia.
  - rewrite map_length. lia.
  - intros x Hx. apply in_map_iff in Hx. destruct Hx as (y & <- & Hy). apply in_seq in Hy. apply in_seq.
    unfold src. destruct (Nat.ltb_spec y Np); lia.
Qed.

(* ---------- C31 ---------- *)
Lemma Rltb_true x y : Rltb x y = true <-> (x < y)%R.
Proof. unfold Rltb. destruct (Rlt_dec x y); split; intros; try assumption; try discriminate; try reflexivity; contradiction. Qed.
Lemma Rltb_false x y : Rltb x y = false <-> (y <= x)%R.
Proof. unfold Rltb. destruct (Rlt_dec x y); split; intros; try discriminate; try reflexivity; lra. Qed.

Lemma count_bound_spec ev : forall n E0,
  fold_left (fun s x => if Rltb x 0 then (S (fst s), x) else s) ev (n, E0)
  = (n + length (filter (fun x => Rltb x 0) ev), last (filter (fun x => Rltb x 0) ev) E0).
Proof.
  induction ev as [|x ev IH]; intros n E0; cbn [fold_left filter].
  - cbn. f_equal. lia.
  - cbn [fst]. destruct (Rltb x 0).
    + rewrite IH. cbn [length]. f_equal; [ lia | ].
      destruct (filter (fun x => Rltb x 0) ev) eqn:E; [ reflexivity | ].
      change (last (x :: r :: l) E0) with (last (r :: l) E0).
      generalize r l. clear. intros r l; revert r; induction l as [|y l IH]; intros r; [ reflexivity | ].
      change (last (r :: y :: l) ?d) with (last (y :: l) d). apply IH.
    + apply IH.
Qed.

Lemma filter_nil {A} (f : A -> bool) l : filter f l = [] <-> forall x, In x l -> f x = false.
Proof.
  split.
  - intros H x Hx. destruct (f x) eqn:E; [ | reflexivity ].
    assert (In x (filter f l)) as Hf by (apply filter_In; auto). rewrite H in Hf. destruct Hf.
  - induction l as [|y l IH]; intros H; [ reflexivity | ]. cbn. rewrite (H y) by (left; reflexivity).
    apply IH. intros; apply H; right; assumption.
Qed.

Lemma filter_one {A} (f : A -> bool) l x :
  filter f l = [x] <-> exists i, nth_error l i = Some x /\ f x = true /\
     forall j y, nth_error l j = Some y -> j <> i -> f y = false.
Proof.
  induction l as [|a l IH]; cbn [filter].
  - split; [ discriminate | ]. intros ([|i] & H & _); discriminate.
  - destruct (f a) eqn:Ea.
    + split.
      * intros H. injection H as -> H. exists 0. split; [ reflexivity | ]. split; [ exact Ea | ].
        intros [|j] y Hy Hj; [ lia | ]. cbn in Hy. apply nth_error_In in Hy.
        apply (proj1 (filter_nil f l) H y Hy).
      * intros ([|i] & Hi & Hf & Ho).
        -- cbn in Hi. injection Hi as ->. f_equal. apply filter_nil. intros y Hy.
           apply In_nth_error in Hy. destruct Hy as [j Hj]. apply (Ho (S j) y); [ exact Hj | lia ].
        -- rewrite (Ho 0 a eq_refl ltac:(lia)) in Ea. discriminate.
    + rewrite IH. split.
      * intros (i & Hi & Hf & Ho). exists (S i). split; [ exact Hi | ]. split; [ exact Hf | ].
        intros [|j] y Hy Hj; [ cbn in Hy; congruence | ]. apply (Ho j y Hy). lia.
      * intros ([|i] & Hi & Hf & Ho); [ cbn in Hi; congruence | ]. exists i. split; [ exact Hi | ].
        split; [ exact Hf | ]. intros j y Hy Hj. apply (Ho (S j) y Hy). lia.
Qed.

Lemma look_for_spec ev flag E0 E1 :
  (look_for_unphysical ev flag E0 = Ok E1 <->
    (flag = false /\ (forall x, In x ev -> (0 <= x)%R) /\ E1 = E0) \/
    (flag = true /\ exists i, nth_error ev i = Some E1 /\ (E1 < 0)%R /\
       forall j y, nth_error ev j = Some y -> j <> i -> (0 <= y)%R)) /\
  (look_for_unphysical ev flag E0 = Err \/ exists E2, look_for_unphysical ev flag E0 = Ok E2).
Proof.
  unfold look_for_unphysical, count_bound. rewrite count_bound_spec. cbn [Nat.add].
  set (F := filter (fun x => Rltb x 0) ev).
  assert (Hnil : F = [] <-> forall x, In x ev -> (0 <= x)%R).
  { unfold F. rewrite filter_nil. split; intros H x Hx; [ apply Rltb_false, H, Hx | apply Rltb_false, H, Hx ]. }
  assert (Hone : forall x, F = [x] <-> exists i, nth_error ev i = Some x /\ (x < 0)%R /\
       forall j y, nth_error ev j = Some y -> j <> i -> (0 <= y)%R).
  { intros x. unfold F. rewrite filter_one. split; intros (i & H1 & H2 & H3); exists i;
      (split; [ exact H1 | ]); (split; [ apply Rltb_true, H2 | ]); intros j y Hy Hj; apply Rltb_false, (H3 j y Hy Hj). }
  split.
  - split.
    + destruct F as [|x [|y F']] eqn:EF; destruct flag; cbn; intros H; try discriminate H; injection H as <-.
      * left. split; [ reflexivity | ]. split; [ apply Hnil; reflexivity | reflexivity ].
      * right. split; [ reflexivity | ]. apply Hone. reflexivity.
    + intros [(-> & H & ->)|(-> & H)].
      * apply Hnil in H. rewrite H. reflexivity.
      * apply Hone in H. rewrite H. reflexivity.
  - destruct F as [|x [|y F']], flag; cbn; eauto.
Qed.

(* ---------- C32 ---------- *)
Lemma zread_ok {A} (a : list A) i (d : A) : (0 <= i < Z.of_nat (length a))%Z -> zread a i = Ok (nth (Z.to_nat i) a d).
Proof.
  intros H. unfold zread. destruct (Z.ltb_spec i 0); [ lia | ].
  destruct (aread_ok a (Z.to_nat i)) as (v & E & N); [ lia | ]. rewrite E. f_equal. symmetry.
  apply nth_error_nth, N.
Qed.
Lemma zwrite_ok {A} (a : list A) i v (d : A) : (0 <= i < Z.of_nat (length a))%Z ->
  exists a', zwrite a i v = Ok a' /\ length a' = length a /\ nth (Z.to_nat i) a' d = v /\
    forall j, j <> Z.to_nat i -> nth j a' d = nth j a d.
Proof.
  intros H. unfold zwrite. destruct (Z.ltb_spec i 0); [ lia | ].
  destruct (awrite_ok a (Z.to_nat i) v) as (a' & E & L & W & O); [ lia | ]. exists a'.
  split; [ exact E | ]. split; [ exact L | ]. split; [ apply nth_error_nth, W | ].
  intros j Hj. rewrite !nth_default_eq || idtac. specialize (O j Hj).
  destruct (nth_error a j) as [x|] eqn:Ea.
  - rewrite (nth_error_nth _ _ d Ea), (nth_error_nth _ _ d O). reflexivity.
  - apply nth_error_None in Ea, O. rewrite !nth_overflow by lia. reflexivity.
Qed.

Definition mid (lam : nat -> R) (i : nat) : R := match i with 0 => 0%R | S k => (0.5 * (lam (S k) + lam k))%R end.
Definition bnd (lam : nat -> R) (Np : nat) (b3 : bool) (i : nat) : R :=
  if b3 && (i =? 0) then lam 0
  else if b3 && (i =? 1) then 0%R
  else if i <? Np then mid lam i
  else (lam (Np - 1)%nat + 0.5 * (mid lam (Np - 1) - mid lam (Np - 2)))%R.

Lemma bb_loop (ev e : list R) (base Np : nat) (coupled : bool) :
  2 <= Np -> length ev = (if coupled then 2 * Np else Np) ->
  base + (if coupled then 2 * (Np + 1) else Np + 1) <= length e ->
  exists e', ofold (fun e i =>
      do a <- aread ev (i + 1); do b <- aread ev i;
      do e <- zwrite e (zn base + zn i + 1) (0.5 * (a + b))%R;
      if coupled then
        do a <- aread ev (i + 1 + Np); do b <- aread ev (i + Np);
        zwrite e (zn base + zn i + 1 + zn Np + 1) (0.5 * (a + b))%R
      else Ok e) (seq 0 (Np - 1)) e = Ok e' /\ length e' = length e /\
  (forall i, 1 <= i < Np -> nth (base + i) e' 0%R = mid (fun k => nth k ev 0%R) i /\
     (coupled = true -> nth (base + (Np + 1) + i) e' 0%R = mid (fun k => nth (Np + k) ev 0%R) i)) /\
  (forall j, (forall i, 1 <= i < Np -> j <> base + i /\ (coupled = true -> j <> base + (Np + 1) + i)) ->
     nth j e' 0%R = nth j e 0%R).
Proof.
  intros H2 Lev Le.
  destruct (ofold_inv (fun d s => length s = length e /\
     (forall i, In i d -> nth (base + S i) s 0%R = mid (fun k => nth k ev 0%R) (S i) /\
       (coupled = true -> nth (base + (Np + 1) + S i) s 0%R = mid (fun k => nth (Np + k) ev 0%R) (S i))) /\
     (forall j, (forall i, 1 <= i < Np -> j <> base + i /\ (coupled = true -> j <> base + (Np + 1) + i)) ->
        nth j s 0%R = nth j e 0%R))
   (fun e i =>
      do a <- aread ev (i + 1); do b <- aread ev i;
      do e <- zwrite e (zn base + zn i + 1) (0.5 * (a + b))%R;
      if coupled then
        do a <- aread ev (i + 1 + Np); do b <- aread ev (i + Np);
        zwrite e (zn base + zn i + 1 + zn Np + 1) (0.5 * (a + b))%R
      else Ok e) (seq 0 (Np - 1)) e) as (s & E & L & W & O).
  - split; [ reflexivity | ]. split; [ intros i [] | reflexivity ].
  - intros d i r s Hl (L & W & O).
    assert (Hi : In i (seq 0 (Np - 1))) by (rewrite Hl; apply in_or_app; right; left; reflexivity).
    assert (Hd : forall k, In k d -> k < Np - 1).
    { intros k Hk. assert (In k (seq 0 (Np - 1))) as Hk' by (rewrite Hl; apply in_or_app; left; exact Hk).
      apply in_seq in Hk'. lia. }
    apply in_seq in Hi.
    destruct (aread_ok ev (i + 1)) as (a & Ea & Na); [ destruct coupled; lia | ].
    destruct (aread_ok ev i) as (b & Eb & Nb); [ destruct coupled; lia | ].
    rewrite Ea, Eb. cbn [obind].
    destruct (zwrite_ok s (zn base + zn i + 1) (0.5 * (a + b))%R 0%R) as (s1 & E1 & L1 & W1 & O1);
      [ unfold zn; destruct coupled; lia | ]. rewrite E1. cbn [obind].
    replace (Z.to_nat (zn base + zn i + 1)) with (base + S i) in * by (unfold zn; lia).
    assert (Hm : mid (fun k => nth k ev 0%R) (S i) = (0.5 * (a + b))%R).
    { cbn [mid]. replace (S i) with (i + 1) by lia.
      rewrite (nth_error_nth _ _ 0%R Na), (nth_error_nth _ _ 0%R Nb). reflexivity. }
    destruct coupled.
    + destruct (aread_ok ev (i + 1 + Np)) as (a2 & Ea2 & Na2); [ lia | ].
      destruct (aread_ok ev (i + Np)) as (b2 & Eb2 & Nb2); [ lia | ].
      rewrite Ea2, Eb2. cbn [obind].
      destruct (zwrite_ok s1 (zn base + zn i + 1 + zn Np + 1) (0.5 * (a2 + b2))%R 0%R) as (s2 & E2 & L2 & W2 & O2);
        [ unfold zn; lia | ]. rewrite E2.
      replace (Z.to_nat (zn base + zn i + 1 + zn Np + 1)) with (base + (Np + 1) + S i) in * by (unfold zn; lia).
      assert (Hm2 : mid (fun k => nth (Np + k) ev 0%R) (S i) = (0.5 * (a2 + b2))%R).
      { cbn [mid]. replace (Np + S i) with (i + 1 + Np) by lia. replace (Np + i) with (i + Np) by lia.
        rewrite (nth_error_nth _ _ 0%R Na2), (nth_error_nth _ _ 0%R Nb2). reflexivity. }
      exists s2. split; [ reflexivity | ]. split; [ congruence | ]. split.
      * intros k Hk. apply in_app_iff in Hk. destruct (Nat.eq_dec k i) as [->|Hne].
        -- split; [ rewrite O2, W1, Hm by lia; reflexivity | intros _; rewrite W2, Hm2; reflexivity ].
        -- destruct Hk as [Hk|[->|[]]]; [ | congruence ]. specialize (Hd k Hk). destruct (W k Hk) as [Wa Wb].
           split; [ rewrite O2, O1 by lia; exact Wa | intros _; rewrite O2, O1 by lia; apply Wb; reflexivity ].
      * intros j Hj. destruct (Hj (S i) ltac:(lia)) as [Hj1 Hj2]. specialize (Hj2 eq_refl).
        rewrite O2, O1 by lia. apply O, Hj.
    + exists s1. split; [ reflexivity | ]. split; [ congruence | ]. split.
      * intros k Hk. apply in_app_iff in Hk. split; [ | discriminate ]. destruct (Nat.eq_dec k i) as [->|Hne].
        -- rewrite W1, Hm. reflexivity.
        -- destruct Hk as [Hk|[->|[]]]; [ | congruence ]. destruct (W k Hk) as [Wa _]. rewrite O1 by lia. exact Wa.
      * intros j Hj. destruct (Hj (S i) ltac:(lia)) as [Hj1 _]. rewrite O1 by lia. apply O, Hj.
  - exists s. split; [ exact E | ]. split; [ exact L | ]. split; [ | exact O ].
    intros i Hi. destruct i as [|i]; [ lia | ]. apply W, in_seq. lia.
Qed.

Lemma bb_spec (ev e : list R) (base Np : nat) (coupled b3 : bool) :
  2 <= Np -> length ev = (if coupled then 2 * Np else Np) ->
  base + (if coupled then 2 * (Np + 1) else Np + 1) <= length e ->
  exists e', bin_boundaries ev e (zn base) Np coupled b3 = Ok e' /\ length e' = length e /\
  (forall i, i <= Np -> nth (base + i) e' 0%R = bnd (fun k => nth k ev 0%R) Np b3 i /\
     (coupled = true -> nth (base + (Np + 1) + i) e' 0%R = bnd (fun k => nth (Np + k) ev 0%R) Np false i)) /\
  (forall j, j < base \/ base + (if coupled then 2 * (Np + 1) else Np + 1) <= j -> nth j e' 0%R = nth j e 0%R).
Proof.
  intros H2 Lev Le. unfold bin_boundaries.
  destruct (zwrite_ok e (zn base) 0%R 0%R) as (e1 & E1 & L1 & W1 & O1); [ unfold zn; destruct coupled; lia | ].
  rewrite E1. cbn [obind]. replace (Z.to_nat (zn base)) with base in * by (unfold zn; lia).
  assert (St : exists e2, (if coupled then zwrite e1 (zn base + zn Np + 1) 0%R else Ok e1) = Ok e2 /\
     length e2 = length e /\ nth base e2 0%R = 0%R /\ (coupled = true -> nth (base + (Np + 1)) e2 0%R = 0%R) /\
     (forall j, j <> base -> (coupled = true -> j <> base + (Np + 1)) -> nth j e2 0%R = nth j e 0%R)).
  { destruct coupled.
    - destruct (zwrite_ok e1 (zn base + zn Np + 1) 0%R 0%R) as (e2 & E2 & L2 & W2 & O2); [ unfold zn; lia | ].
      replace (Z.to_nat (zn base + zn Np + 1)) with (base + (Np + 1)) in * by (unfold zn; lia).
      exists e2. split; [ exact E2 | ]. split; [ congruence | ]. split; [ rewrite O2 by lia; exact W1 | ].
      split; [ intros _; exact W2 | ]. intros j Hj1 Hj2. specialize (Hj2 eq_refl). rewrite O2, O1 by lia. reflexivity.
    - exists e1. split; [ reflexivity | ]. split; [ exact L1 | ]. split; [ exact W1 | ].
      split; [ discriminate | ]. intros j Hj _. apply O1, Hj. }
  destruct St as (e2 & E2 & L2 & W2a & W2b & O2). rewrite E2. cbn [obind].
  destruct (bb_loop ev e2 base Np coupled H2 Lev ltac:(rewrite L2; exact Le)) as (e3 & E3 & L3 & W3 & O3).
  rewrite E3. cbn [obind].
  (* values before the end boundary *)
  assert (V3 : forall i, i < Np -> nth (base + i) e3 0%R = mid (fun k => nth k ev 0%R) i).
  { intros [|i] Hi; [ | apply W3; lia ]. rewrite O3; [ rewrite Nat.add_0_r; exact W2a | ].
    intros k Hk. split; [ lia | intros _; lia ]. }
  assert (V3' : coupled = true -> forall i, i < Np -> nth (base + (Np + 1) + i) e3 0%R = mid (fun k => nth (Np + k) ev 0%R) i).
  { intros Hc [|i] Hi; [ | apply W3; [ lia | exact Hc ] ]. rewrite O3; [ rewrite Nat.add_0_r; apply W2b, Hc | ].
    intros k Hk. split; [ lia | intros _; lia ]. }
  rewrite (zread_ok ev (zn Np - 1) 0%R) by (unfold zn; destruct coupled; lia). cbn [obind].
  rewrite (zread_ok e3 (zn base + zn Np - 1) 0%R) by (unfold zn; destruct coupled; lia). cbn [obind].
  rewrite (zread_ok e3 (zn base + zn Np - 2) 0%R) by (unfold zn; destruct coupled; lia). cbn [obind].
  replace (Z.to_nat (zn base + zn Np - 1)) with (base + (Np - 1)) by (unfold zn; lia).
  replace (Z.to_nat (zn base + zn Np - 2)) with (base + (Np - 2)) by (unfold zn; lia).
  replace (Z.to_nat (zn Np - 1)) with (Np - 1) by (unfold zn; lia).
  rewrite !V3 by lia.
  match goal with |- context [zwrite e3 ?i ?v] => destruct (zwrite_ok e3 i v 0%R) as (e4 & E4 & L4 & W4 & O4);
     [ unfold zn; destruct coupled; lia | rewrite E4 ] end. cbn [obind].
  replace (Z.to_nat (zn base + zn Np)) with (base + Np) in * by (unfold zn; lia).
  set (lastb := fun lam : nat -> R => (lam (Np - 1)%nat + 0.5 * (mid lam (Np - 1) - mid lam (Np - 2)))%R) in *.
  change (nth (base + Np) e4 0%R = lastb (fun k => nth k ev 0%R)) in W4.
  assert (St : exists e5, (if coupled then
             do l <- zread ev (2 * zn Np - 1); do a <- zread e4 (zn base + 2 * zn Np); do b <- zread e4 (zn base + 2 * zn Np - 1);
             zwrite e4 (zn base + 2 * zn Np + 1) (l + 0.5 * (a - b))%R
           else Ok e4) = Ok e5 /\ length e5 = length e /\
     (forall i, i < Np -> nth (base + i) e5 0%R = mid (fun k => nth k ev 0%R) i) /\
     nth (base + Np) e5 0%R = lastb (fun k => nth k ev 0%R) /\
     (coupled = true -> (forall i, i < Np -> nth (base + (Np + 1) + i) e5 0%R = mid (fun k => nth (Np + k) ev 0%R) i) /\
                        nth (base + (Np + 1) + Np) e5 0%R = lastb (fun k => nth (Np + k) ev 0%R)) /\
     (forall j, j < base \/ base + (if coupled then 2 * (Np + 1) else Np + 1) <= j -> nth j e5 0%R = nth j e 0%R)).
  { assert (Base : length e4 = length e /\ (forall i, i < Np -> nth (base + i) e4 0%R = mid (fun k => nth k ev 0%R) i) /\
       (coupled = true -> (forall i, i < Np -> nth (base + (Np + 1) + i) e4 0%R = mid (fun k => nth (Np + k) ev 0%R) i)) /\
       (forall j, j < base \/ base + (if coupled then 2 * (Np + 1) else Np + 1) <= j -> nth j e4 0%R = nth j e 0%R)).
    { split; [ congruence | ]. split; [ intros i Hi; rewrite O4 by lia; apply V3, Hi | ].
      split; [ intros Hc i Hi; rewrite O4 by lia; apply V3'; assumption | ].
      intros j Hj. rewrite O4, O3, O2; [ reflexivity | | | | ].
      - destruct coupled; lia.
      - intros Hc. rewrite Hc in Hj. lia.
      - intros i Hi. destruct coupled; split; try discriminate; lia.
      - destruct coupled; lia. }
    destruct Base as (Lb & Vb & Vb' & Ob). destruct coupled.
    - rewrite (zread_ok ev (2 * zn Np - 1) 0%R) by (unfold zn; lia). cbn [obind].
      rewrite (zread_ok e4 (zn base + 2 * zn Np) 0%R) by (unfold zn; lia). cbn [obind].
      rewrite (zread_ok e4 (zn base + 2 * zn Np - 1) 0%R) by (unfold zn; lia). cbn [obind].
      replace (Z.to_nat (zn base + 2 * zn Np)) with (base + (Np + 1) + (Np - 1)) by (unfold zn; lia).
      replace (Z.to_nat (zn base + 2 * zn Np - 1)) with (base + (Np + 1) + (Np - 2)) by (unfold zn; lia).
      replace (Z.to_nat (2 * zn Np - 1)) with (Np + (Np - 1)) by (unfold zn; lia).
      rewrite !(Vb' eq_refl) by lia.
      match goal with |- context [zwrite e4 ?i ?v] => destruct (zwrite_ok e4 i v 0%R) as (e5 & E5 & L5 & W5 & O5);
        [ unfold zn; lia | rewrite E5 ] end.
      replace (Z.to_nat (zn base + 2 * zn Np + 1)) with (base + (Np + 1) + Np) in * by (unfold zn; lia).
      exists e5. split; [ reflexivity | ]. split; [ congruence | ].
      split; [ intros i Hi; rewrite O5 by lia; apply Vb, Hi | ].
      split; [ rewrite O5 by lia; exact W4 | ].
      split; [ intros _; split; [ intros i Hi; rewrite O5 by lia; apply (Vb' eq_refl), Hi | exact W5 ] | ].
      intros j Hj. rewrite O5 by lia. apply Ob, Hj.
    - exists e4. split; [ reflexivity | ]. split; [ exact Lb | ]. split; [ exact Vb | ]. split; [ exact W4 | ].
      split; [ discriminate | exact Ob ]. }
  destruct St as (e5 & E5 & L5 & V5 & W5 & V5' & O5). rewrite E5. cbn [obind].
  assert (B0 : forall lam i, i <= Np -> bnd lam Np false i = if i <? Np then mid lam i else lastb lam).
  { intros lam i Hi. unfold bnd. cbn [andb]. reflexivity. }
  destruct b3.
  - rewrite (zread_ok ev 0 0%R) by (destruct coupled; lia). cbn [obind].
    destruct (zwrite_ok e5 (zn base) (nth (Z.to_nat 0) ev 0%R) 0%R) as (e6 & E6 & L6 & W6 & O6);
      [ unfold zn; destruct coupled; lia | ]. rewrite E6. cbn [obind].
    destruct (zwrite_ok e6 (zn base + 1) 0%R 0%R) as (e7 & E7 & L7 & W7 & O7);
      [ unfold zn; destruct coupled; lia | ]. rewrite E7.
    replace (Z.to_nat (zn base)) with base in * by (unfold zn; lia).
    replace (Z.to_nat (zn base + 1)) with (base + 1) in * by (unfold zn; lia).
    exists e7. split; [ reflexivity | ]. split; [ congruence | ]. split.
    + intros i Hi. split.
      * unfold bnd. destruct i as [|[|i]]; cbn [andb Nat.eqb].
        -- rewrite O7, Nat.add_0_r by lia. exact W6.
        -- exact W7.
        -- rewrite O7, O6 by lia. fold (lastb (fun k => nth k ev 0%R)). destruct (Nat.ltb_spec (S (S i)) Np) as [Hlt|Hge].
           ++ apply V5, Hlt.
           ++ replace (base + S (S i)) with (base + Np) by lia. exact W5.
      * intros Hc. destruct (V5' Hc) as [Va Vb]. rewrite O7, O6 by lia. rewrite B0 by exact Hi.
        destruct (Nat.ltb_spec i Np); [ apply Va; assumption | replace i with Np by lia; exact Vb ].
    + intros j Hj. rewrite O7, O6 by (destruct coupled; lia). apply O5, Hj.
  - exists e5. split; [ reflexivity | ]. split; [ exact L5 | ]. split; [ | exact O5 ].
    intros i Hi. rewrite !B0 by exact Hi. split.
    + destruct (Nat.ltb_spec i Np); [ apply V5; assumption | replace i with Np by lia; exact W5 ].
    + intros Hc. destruct (V5' Hc) as [Va Vb].
      destruct (Nat.ltb_spec i Np); [ apply Va; assumption | replace i with Np by lia; exact Vb ].
Qed.

(* ordering *)
Lemma mid_lt lam Np i : (forall a b, a < b < Np -> (lam a < lam b)%R) -> (0 < lam 0%nat)%R -> S i < Np ->
  (mid lam i < lam i /\ lam i < mid lam (S i))%R.
Proof.
  intros Hs H0 Hi. assert (lam i < lam (S i))%R by (apply Hs; lia). cbn [mid]. split; [ | lra ].
  destruct i as [|i]; [ cbn [mid]; exact H0 | ]. cbn [mid].
  assert (lam i < lam (S i))%R by (apply Hs; lia). lra.
Qed.

Lemma bnd_order lam Np : 2 <= Np -> (forall a b, a < b < Np -> (lam a < lam b)%R) -> (0 < lam 0%nat)%R ->
  bnd lam Np false 0 = 0%R /\
  forall i, i < Np -> (bnd lam Np false i < lam i /\ lam i < bnd lam Np false (S i))%R.
Proof.
  intros H2 Hs H0. split; [ unfold bnd; cbn; destruct Np; [ lia | reflexivity ] | ].
  intros i Hi. unfold bnd. cbn [andb].
  destruct (Nat.ltb_spec i Np); [ | lia ].
  assert (Hlast : (mid lam (Np - 2) < mid lam (Np - 1))%R).
  { destruct (mid_lt lam Np (Np - 2) Hs H0 ltac:(lia)) as [Ha Hb].
    replace (S (Np - 2)) with (Np - 1) in Hb by lia. lra. }
  destruct (Nat.ltb_spec (S i) Np) as [Hlt|Hge].
  - apply (mid_lt lam Np i Hs H0 Hlt).
  - replace (Np - 1) with i in * by lia. split; [ | lra ].
    destruct i as [|i]; [ lia | ]. cbn [mid]. assert (lam i < lam (S i))%R by (apply Hs; lia). lra.
Qed.

Lemma bnd_order_3S1 lam Np : 3 <= Np -> (forall a b, a < b < Np -> (lam a < lam b)%R) ->
  (lam 0%nat < 0)%R -> (0 < lam 1%nat)%R ->
  bnd lam Np true 0 = lam 0 /\ bnd lam Np true 1 = 0%R /\
  forall i, 1 <= i -> i < Np -> (bnd lam Np true i < lam i /\ lam i < bnd lam Np true (S i))%R.
Proof.
  intros H3 Hs H0 H1. split; [ reflexivity | ]. split; [ reflexivity | ].
  intros i Hi1 Hi. unfold bnd. destruct i as [|i]; [ lia | ].
  change (S i =? 0) with false. change (S (S i) =? 0) with false. change (S (S i) =? 1) with false.
  change (S i =? 1) with (i =? 0).
  rewrite !andb_false_r. cbn [andb].
  assert (Hmid : forall k, 1 <= k -> S k < Np -> (lam k < mid lam (S k))%R).
  { intros k Hk1 Hk. cbn [mid]. assert (lam k < lam (S k))%R by (apply Hs; lia). lra. }
  assert (Hmid' : forall k, 2 <= k -> k < Np -> (mid lam k < lam k)%R).
  { intros [|k] Hk1 Hk; [ lia | ]. cbn [mid]. assert (lam k < lam (S k))%R by (apply Hs; lia). lra. }
  assert (Hlo : ((if i =? 0 then 0%R else if S i <? Np then mid lam (S i) else
     (lam (Np - 1)%nat + 0.5 * (mid lam (Np - 1) - mid lam (Np - 2)))%R) < lam (S i))%R).
  { destruct (Nat.eqb_spec i 0) as [->|Hne]; [ exact H1 | ].
    destruct (Nat.ltb_spec (S i) Np); [ | lia ]. apply Hmid'; lia. }
  split; [ exact Hlo | ].
  destruct (Nat.ltb_spec (S (S i)) Np) as [Hlt|Hge]; [ apply Hmid; lia | ].
  replace (Np - 1) with (S i) by lia. replace (Np - 2) with i by lia.
  assert (mid lam i < mid lam (S i))%R; [ | lra ].
  destruct i as [|i]; [ lia | ]. cbn [mid].
  assert (lam i < lam (S i))%R by (apply Hs; lia). assert (lam (S i) < lam (S (S i)))%R by (apply Hs; lia). lra.
Qed.
