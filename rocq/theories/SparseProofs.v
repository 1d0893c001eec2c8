From Coq Require Import Permutation Sorted.
From Verif Require Import Common ArrayLib SparseModel.
Open Scope nat_scope.

(* ---------- CSR/CSC offsets ---------- *)
Lemma count_until_spec b l :
  count_until b l <= length l /\
  (forall j, j < count_until b l -> nth j l 0 <= b) /\
  (count_until b l < length l -> b < nth (count_until b l) l 0).
Proof.
  induction l as [|x l (H1 & H2 & H3)]; cbn [count_until]; [ cbn; repeat split; intros; lia | ].
  destruct (Nat.ltb_spec b x) as [Hb|Hb].
  - repeat split; cbn; intros; lia.
  - cbn [length]. split; [ lia | ]. split.
    + intros [|j] Hj; cbn; [ lia | apply H2; lia ].
    + intros Hc. cbn. apply H3. lia.
Qed.

Lemma sorted_nth l i j : StronglySorted le l -> i <= j -> j < length l -> nth i l 0 <= nth j l 0.
Proof.
  intros Hs. revert i j; induction Hs as [|x l Hs IH Hx]; intros i j Hij Hj; cbn in Hj; [ lia | ].
  destruct i as [|i]; destruct j as [|j]; cbn; try lia.
  - rewrite Forall_forall in Hx. apply Hx, nth_In. lia.
  - apply IH; lia.
Qed.

Definition off_ok (coo : list nat) (i p : nat) : Prop :=
  p <= length coo /\ forall j, j < length coo -> (j < p <-> nth j coo 0 < i).

Lemma off_step coo i p : StronglySorted le coo -> off_ok coo i p ->
  off_ok coo (S i) (count_until i (skipn p coo) + p).
Proof.
  intros Hs (Hp & Hj). destruct (count_until_spec i (skipn p coo)) as (H1 & H2 & H3).
  rewrite skipn_length in *. set (n := count_until i (skipn p coo)) in *.
  assert (Hnth : forall k, nth k (skipn p coo) 0 = nth (p + k) coo 0).
  { intros k. rewrite <- (firstn_skipn p coo) at 2.
    rewrite app_nth2 by (rewrite firstn_length; lia). rewrite firstn_length. f_equal. lia. }
  split; [ lia | ]. intros j Hlt. split.
  - intros Hjo. destruct (Nat.lt_ge_cases j p) as [Hjp|Hjp].
    + apply Hj in Hjp; lia.
    + specialize (H2 (j - p) ltac:(lia)). rewrite Hnth in H2. replace (p + (j - p)) with j in H2 by lia. lia.
  - intros Hc. destruct (Nat.lt_ge_cases j (n + p)) as [|Hge]; [ assumption | exfalso ].
    specialize (H3 ltac:(lia)). rewrite Hnth in H3.
    pose proof (sorted_nth coo (p + n) j Hs ltac:(lia) Hlt). lia.
Qed.

Lemma csr_offsets_spec coo : StronglySorted le coo -> forall k i p, off_ok coo i p ->
  length (csr_offsets coo k i p) = k /\
  forall m, m <= k -> exists o, nth_error (p :: csr_offsets coo k i p) m = Some o /\ off_ok coo (i + m) o.
Proof.
  intros Hs. induction k as [|k IH]; intros i p Hp.
  - split; [ reflexivity | ]. intros m Hm. exists p. replace m with 0 by lia. rewrite Nat.add_0_r. auto.
  - cbn [csr_offsets]. set (o := count_until i (skipn p coo) + p).
    assert (Ho : off_ok coo (S i) o) by (apply off_step; assumption).
    destruct (IH (S i) o Ho) as (L & N). split; [ cbn; lia | ].
    intros [|m] Hm.
    + exists p. rewrite Nat.add_0_r. auto.
    + destruct (N m ltac:(lia)) as (o' & E & Hok). exists o'. split; [ exact E | ].
      replace (i + S m) with (S i + m) by lia. exact Hok.
Qed.

Lemma csr_spec coo dim :
  StronglySorted le coo -> (forall x, In x coo -> x < dim) ->
  length (coo_to_csr coo dim) = dim + 1 /\
  nth_error (coo_to_csr coo dim) 0 = Some 0 /\
  nth_error (coo_to_csr coo dim) dim = Some (length coo) /\
  forall i, i < dim -> exists a b,
    nth_error (coo_to_csr coo dim) i = Some a /\ nth_error (coo_to_csr coo dim) (i + 1) = Some b /\
    a <= b <= length coo /\
    forall j, j < length coo -> (a <= j < b <-> nth j coo 0 = i).
Proof.
  intros Hs Hd. unfold coo_to_csr.
  assert (H0 : off_ok coo 0 0) by (split; [ lia | intros; lia ]).
  destruct (csr_offsets_spec coo Hs dim 0 0 H0) as (L & N).
  split; [ cbn [length]; lia | ]. split; [ reflexivity | ]. split.
  - destruct (N dim (le_n _)) as (o & E & (Ho1 & Ho2)). rewrite E. f_equal.
    destruct (Nat.eq_dec o (length coo)) as [|Hne]; [ assumption | exfalso ].
    assert (Hlt : o < length coo) by lia.
    specialize (Ho2 o Hlt). assert (nth o coo 0 < dim) by (apply Hd, nth_In, Hlt). cbn in *. lia.
  - intros i Hi. destruct (N i ltac:(lia)) as (a & Ea & (Ha1 & Ha2)).
    destruct (N (i + 1) ltac:(lia)) as (b & Eb & (Hb1 & Hb2)).
    exists a, b. split; [ exact Ea | ]. split; [ exact Eb | ]. cbn [plus] in *.
    split.
    + split; [ | exact Hb1 ]. destruct (Nat.lt_ge_cases b a) as [Hlt|]; [ exfalso | assumption ].
      specialize (Ha2 b ltac:(lia)). specialize (Hb2 b ltac:(lia)). lia.
    + intros j Hj. specialize (Ha2 j Hj). specialize (Hb2 j Hj). lia.
Qed.

(* ---------- sorting ---------- *)
Lemma gather_ok {A} (a : list A) idx : (forall i, In i idx -> i < length a) ->
  exists b, gather a idx = Ok b /\ forall d, b = map (fun i => nth i a d) idx.
Proof.
  induction idx as [|i idx IH]; intros H; [ exists []; split; reflexivity | ].
  destruct IH as (b & Hb & Hm). { intros j Hj. apply H. right; exact Hj. }
  destruct (aread_ok a i) as (v & Hv & Hn). { apply H. left; reflexivity. }
  exists (v :: b). cbn. rewrite Hv. cbn. rewrite Hb. split; [ reflexivity | ].
  intros d. rewrite <- Hm. f_equal. symmetry. apply nth_error_nth. exact Hn.
Qed.

Lemma map_nth_seq {A} (a : list A) d : map (fun i => nth i a d) (seq 0 (length a)) = a.
Proof.
  induction a as [|x a IH]; [ reflexivity | ]. cbn. f_equal.
  rewrite <- seq_shift, map_map. exact IH.
Qed.

Lemma combine_map {A B C} (f : C -> A) (g : C -> B) l : combine (map f l) (map g l) = map (fun c => (f c, g c)) l.
Proof. induction l as [|c l IH]; [ reflexivity | ]. cbn. rewrite IH. reflexivity. Qed.

Lemma key_exact dim a b : a < dim -> b < dim -> (Z.of_nat dim < 2 ^ 31)%Z ->
  key dim a b = (Z.of_nat a * Z.of_nat dim + Z.of_nat b)%Z.
Proof. intros Ha Hb Hd. unfold key. apply Z.mod_small. nia. Qed.

Lemma key_le dim a b a' b' : a < dim -> b < dim -> a' < dim -> b' < dim -> (Z.of_nat dim < 2 ^ 31)%Z ->
  (key dim a b <= key dim a' b')%Z -> a < a' \/ (a = a' /\ b <= b').
Proof. intros. rewrite !key_exact in * by assumption. nia. Qed.

Lemma sort_gen {V} (major minor : nat * nat -> nat) dim rows cols (vals : list V) idx :
  length cols = length rows -> length vals = length rows ->
  (Z.of_nat dim < 2 ^ 31)%Z ->
  (forall rc, In rc (combine rows cols) -> major rc < dim /\ minor rc < dim) ->
  sort_indexes_contract (map (fun rc => key dim (major rc) (minor rc)) (combine rows cols)) idx ->
  exists rows' cols' vals',
    apply_sort rows cols vals idx = Ok (rows', cols', vals') /\
    length rows' = length rows /\ length cols' = length rows /\ length vals' = length rows /\
    Permutation (combine (combine rows' cols') vals') (combine (combine rows cols) vals) /\
    StronglySorted (fun x y => major x < major y \/ (major x = major y /\ minor x <= minor y))
      (combine rows' cols').
Proof.
  intros Hc Hv Hdim Hb [HP HS]. rewrite map_length, combine_length, Hc, Nat.min_id in HP.
  assert (Hin : forall i, In i idx -> i < length rows).
  { intros i Hi. apply (Permutation_in _ HP) in Hi. apply in_seq in Hi. lia. }
  destruct (gather_ok rows idx Hin) as (r & Er & Mr).
  destruct (gather_ok cols idx) as (c & Ec & Mc). { intros; rewrite Hc; auto. }
  destruct (gather_ok vals idx) as (v & Ev & Mv). { intros; rewrite Hv; auto. }
  assert (Hlen : length idx = length rows) by (rewrite (Permutation_length HP), seq_length; reflexivity).
  exists r, c, v. unfold apply_sort. rewrite Er, Ec, Ev. cbn [obind]. split; [ reflexivity | ].
  pose proof (Mr 0) as Mr0. pose proof (Mc 0) as Mc0.
  assert (Hrl : length r = length rows) by (rewrite Mr0, map_length; exact Hlen).
  assert (Hcl : length c = length rows) by (rewrite Mc0, map_length; exact Hlen).
  split; [ exact Hrl | ]. split; [ exact Hcl | ].
  assert (Hrc : combine r c = map (fun i => nth i (combine rows cols) (0, 0)) idx).
  { rewrite Mr0, Mc0, combine_map. apply map_ext. intros i. rewrite combine_nth by auto. reflexivity. }
  destruct vals as [|v0 vals'] eqn:Evals.
  { destruct rows as [|]; [ | discriminate ]. destruct idx; [ | discriminate ].
    cbn in *. subst r c. specialize (Ev). injection Ev as <-. cbn. repeat split; constructor. }
  rewrite <- Evals in *.
  assert (Hvl : length v = length rows) by (rewrite (Mv v0), map_length; exact Hlen).
  split; [ exact Hvl | ]. split.
  - assert (Hrcv : combine (combine r c) v = map (fun i => nth i (combine (combine rows cols) vals) ((0, 0), v0)) idx).
    { rewrite Hrc, (Mv v0), combine_map. apply map_ext. intros i.
      rewrite (combine_nth (combine rows cols) vals); [ reflexivity | rewrite combine_length, Hc, Nat.min_id; auto ]. }
    rewrite Hrcv. rewrite HP.
    assert (Hl3 : length (combine (combine rows cols) vals) = length rows)
      by (rewrite !combine_length, Hc, Hv, !Nat.min_id; reflexivity).
    rewrite <- Hl3, map_nth_seq. reflexivity.
  - rewrite Hrc.
    assert (Hkey : forall i, i < length rows ->
       nth i (map (fun rc => key dim (major rc) (minor rc)) (combine rows cols)) 0%Z
       = key dim (major (nth i (combine rows cols) (0,0))) (minor (nth i (combine rows cols) (0,0)))).
    { intros i Hi. rewrite (nth_indep _ 0%Z (key dim (major (0,0)) (minor (0,0))))
        by (rewrite map_length, combine_length, Hc, Nat.min_id; exact Hi).
      rewrite (map_nth (fun rc => key dim (major rc) (minor rc))). reflexivity. }
    clear -HS Hin Hkey Hb Hdim Hc. induction HS as [|i idx HS IH Hi]; [ constructor | ].
    cbn [map]. constructor.
    + apply IH. intros j Hj; apply Hin; right; exact Hj.
    + rewrite Forall_forall in *. intros x Hx. apply in_map_iff in Hx. destruct Hx as (j & <- & Hj).
      specialize (Hi j Hj).
      assert (Li : i < length rows) by (apply Hin; left; reflexivity).
      assert (Lj : j < length rows) by (apply Hin; right; exact Hj).
      rewrite !Hkey in Hi by assumption.
      assert (Bi : In (nth i (combine rows cols) (0,0)) (combine rows cols))
        by (apply nth_In; rewrite combine_length, Hc, Nat.min_id; exact Li).
      assert (Bj : In (nth j (combine rows cols) (0,0)) (combine rows cols))
        by (apply nth_In; rewrite combine_length, Hc, Nat.min_id; exact Lj).
      apply Hb in Bi, Bj. eapply key_le; [ .. | exact Hi ]; tauto.
Qed.

(* ---------- transpose ---------- *)
Lemma nth_error_repeat {A} (x : A) n i : i < n -> nth_error (repeat x n) i = Some x.
Proof. revert i; induction n as [|n IH]; intros [|i] H; cbn; try lia; [ reflexivity | apply IH; lia ]. Qed.

Section Transpose.
Variable V : Type.
Lemma transpose_spec mat dim : length mat = dim * dim ->
  exists out, simple_transpose V mat dim = Ok out /\ length out = dim * dim /\
    forall r c, r < dim -> c < dim -> nth_error out (r * dim + c) = nth_error mat (c * dim + r).
Proof.
  intros Hl. unfold simple_transpose.
  destruct (ofold_inv (fun d t => length t = dim * dim /\
      forall r c, In (r, c) d -> nth_error t (c * dim + r) = option_map Some (nth_error mat (r * dim + c)))
    (fun t rc => do v <- aread mat (fst rc * dim + snd rc); awrite t (snd rc * dim + fst rc) (Some v))
    (nest dim dim) (repeat None (dim * dim))) as (t & Et & Lt & Ht).
  - split; [ apply repeat_length | intros r c [] ].
  - intros d [r c] rest s Hd (Ls & Hs). cbn [fst snd].
    assert (Hin : In (r, c) (nest dim dim)) by (rewrite Hd; apply in_or_app; right; left; reflexivity).
    apply in_nest in Hin. destruct Hin as [Hr Hc].
    destruct (aread_ok mat (r * dim + c)) as (v & Ev & Nv); [ rewrite Hl; apply rm_lt; assumption | ].
    rewrite Ev. cbn [obind].
    destruct (awrite_ok s (c * dim + r) (Some v)) as (s' & Es & L' & W & O); [ rewrite Ls; apply rm_lt; assumption | ].
    exists s'. split; [ exact Es | ]. split; [ congruence | ]. intros r' c' Hin.
    apply in_app_iff in Hin. destruct (Nat.eq_dec (c' * dim + r') (c * dim + r)) as [He|Hne].
    + assert (Hb : r' < dim /\ c' < dim).
      { apply in_nest. rewrite Hd. apply in_or_app. destruct Hin as [H|[H|[]]]; [ left; exact H | ].
        injection H as <- <-. right; left; reflexivity. }
      apply rm_inj in He; [ | tauto | assumption ]. destruct He as [-> ->]. rewrite W, Nv. reflexivity.
    + rewrite O by exact Hne. destruct Hin as [H|[H|[]]]; [ apply Hs, H | congruence ].
  - rewrite Et. cbn [obind].
    destruct (all_init_ok t) as (b & Eb & Lb & Hb).
    { intros i Hi. rewrite Lt in Hi. destruct (rm_surj dim dim i Hi) as (c & r & Hc & Hr & ->).
      rewrite (Ht r c) by (apply in_nest; auto).
      destruct (aread_ok mat (r * dim + c)) as (v & _ & Nv); [ rewrite Hl; apply rm_lt; assumption | ].
      rewrite Nv. eexists; reflexivity. }
    exists b. split; [ exact Eb | ]. split; [ congruence | ]. intros r c Hr Hc.
    destruct (aread_ok mat (c * dim + r)) as (v & _ & Nv); [ rewrite Hl; apply rm_lt; assumption | ].
    rewrite Nv. apply Hb. rewrite (Ht c r) by (apply in_nest; auto). rewrite Nv. reflexivity.
Qed.

Lemma transpose_twice mat dim : length mat = dim * dim ->
  (do t <- simple_transpose V mat dim; simple_transpose V t dim) = Ok mat.
Proof.
  intros Hl. destruct (transpose_spec mat dim Hl) as (t & Et & Lt & Ht). rewrite Et. cbn [obind].
  destruct (transpose_spec t dim Lt) as (u & Eu & Lu & Hu). rewrite Eu. f_equal.
  apply list_ext; [ congruence | ]. intros i Hi. rewrite Lu in Hi.
  destruct (rm_surj dim dim i Hi) as (r & c & Hr & Hc & ->). rewrite Hu, Ht by assumption. reflexivity.
Qed.

End Transpose.

Section Dense.
Variable V : Type.
Variable zero : V.
Variable is_zero : V -> bool.

(* ---------- dense <-> COO ---------- *)
Definition nz (dim : nat) (mat : list V) (ij : nat * nat) : bool :=
  negb (is_zero (nth (fst ij * dim + snd ij) mat zero)).

Lemma aread_nth (mat : list V) i : i < length mat -> aread mat i = Ok (nth i mat zero).
Proof.
  intros H. destruct (aread_ok mat i H) as (v & E & N). rewrite E. f_equal. symmetry. apply nth_error_nth, N.
Qed.

Lemma nonzero_spec dim mat : length mat = dim * dim ->
  nonzero_idx V is_zero dim mat = Ok (filter (nz dim mat) (nest dim dim)).
Proof.
  intros Hl. unfold nonzero_idx.
  destruct (ofold_inv (fun d acc => acc = filter (nz dim mat) d)
    (fun acc ij => do v <- aread mat (fst ij * dim + snd ij); Ok (if is_zero v then acc else acc ++ [ij]))
    (nest dim dim) []) as (s & Es & Hs).
  - reflexivity.
  - intros d [i j] rest s Hd ->.
    assert (Hin : In (i, j) (nest dim dim)) by (rewrite Hd; apply in_or_app; right; left; reflexivity).
    apply in_nest in Hin. cbn [fst snd]. rewrite aread_nth by (rewrite Hl; apply rm_lt; tauto). cbn [obind].
    eexists; split; [ reflexivity | ]. rewrite filter_app. cbn [filter].
    replace (nz dim mat (i, j)) with (negb (is_zero (nth (i * dim + j) mat zero))) by reflexivity.
    destruct (is_zero (nth (i * dim + j) mat zero)); cbn [negb]; [ rewrite app_nil_r | ]; reflexivity.
  - rewrite Es, Hs. reflexivity.
Qed.

Lemma dense_to_coo_spec dim mat : length mat = dim * dim ->
  dense_to_coo V is_zero dim mat =
  Ok (map (fun ij => (ij, nth (fst ij * dim + snd ij) mat zero)) (filter (nz dim mat) (nest dim dim))).
Proof.
  intros Hl. unfold dense_to_coo. rewrite nonzero_spec by exact Hl. cbn [obind].
  set (l := filter (nz dim mat) (nest dim dim)).
  destruct (ofold_inv (fun d acc => acc = map (fun ij => (ij, nth (fst ij * dim + snd ij) mat zero)) d)
    (fun acc rc => do v <- aread mat (fst rc * dim + snd rc); Ok (acc ++ [(rc, v)])) l []) as (s & Es & Hs).
  - reflexivity.
  - intros d [i j] rest s Hd ->.
    assert (Hin : In (i, j) l) by (rewrite Hd; apply in_or_app; right; left; reflexivity).
    apply filter_In in Hin. destruct Hin as [Hin _]. apply in_nest in Hin. cbn [fst snd].
    rewrite aread_nth by (rewrite Hl; apply rm_lt; tauto). cbn [obind].
    eexists; split; [ reflexivity | ]. rewrite map_app. reflexivity.
  - rewrite Es, Hs. reflexivity.
Qed.

Lemma round_trip dim mat :
  (forall v, is_zero v = true -> v = zero) -> length mat = dim * dim ->
  (do l <- dense_to_coo V is_zero dim mat; coo_to_dense_intended V zero dim l) = Ok mat.
Proof.
  intros Hz Hl. rewrite dense_to_coo_spec by exact Hl. cbn [obind]. unfold coo_to_dense_intended.
  set (l := map _ _).
  assert (Hb : forall t, In t l -> trow V t < dim /\ tcol V t < dim /\
             tval V t = nth (trow V t * dim + tcol V t) mat zero).
  { intros t Ht. apply in_map_iff in Ht. destruct Ht as ([i j] & <- & Hf). apply filter_In in Hf.
    destruct Hf as [Hf _]. apply in_nest in Hf. cbn. tauto. }
  destruct (scatter (fun t => trow V t * dim + tcol V t) (tval V) l (repeat zero (dim * dim)))
    as (out & Eo & Lo & Ho & Hn).
  - intros t Ht. apply Hb in Ht. rewrite repeat_length. apply rm_lt; tauto.
  - intros t u Ht Hu E. apply Hb in Ht, Hu. destruct Ht as (_ & _ & ->). destruct Hu as (_ & _ & ->).
    rewrite E. reflexivity.
  - rewrite Eo. f_equal. rewrite repeat_length in Lo. apply list_ext; [ congruence | ].
    intros k Hk. rewrite Lo in Hk. destruct (rm_surj dim dim k Hk) as (r & c & Hr & Hc & ->).
    assert (Hv : nth_error mat (r * dim + c) = Some (nth (r * dim + c) mat zero))
      by (apply nth_error_nth'; rewrite Hl; exact Hk).
    rewrite Hv. destruct (nz dim mat (r, c)) eqn:En.
    + apply (Ho ((r, c), nth (r * dim + c) mat zero)). apply in_map_iff. exists (r, c). split; [ reflexivity | ].
      apply filter_In. split; [ apply in_nest; auto | exact En ].
    + rewrite Hn.
      * rewrite nth_error_repeat by exact Hk. f_equal. symmetry. apply Hz. unfold nz in En. cbn [fst snd] in En.
        destruct (is_zero _); [ reflexivity | discriminate ].
      * intros t Ht E. pose proof (Hb t Ht) as (H1 & H2 & _). apply rm_inj in E; [ | assumption.. ].
        destruct E as [E1 E2]. apply in_map_iff in Ht. destruct Ht as ([i j] & <- & Hf). cbn in E1, E2. subst i j.
        apply filter_In in Hf. destruct Hf as [_ Hf]. congruence.
Qed.

Lemma coo_to_dense_UB dim l : 2 <= dim -> coo_to_dense V dim l = UB.
Proof using V.
  clear zero is_zero.
  intros H. unfold coo_to_dense. destruct dim as [|[|d]]; [ lia | lia | ]. reflexivity.
Qed.
Lemma coo_to_dense_UB1 t l : coo_to_dense V 1 (t :: l) = UB.
Proof. reflexivity. Qed.

Lemma dense_to_coo_elements dim mat : length mat = dim * dim ->
  exists l, dense_to_coo V is_zero dim mat = Ok l /\ NoDup (map fst l) /\
    StronglySorted (fun s t => trow V s < trow V t \/ (trow V s = trow V t /\ tcol V s < tcol V t)) l /\
    forall r c v, In (r, c, v) l <->
      r < dim /\ c < dim /\ nth_error mat (r * dim + c) = Some v /\ is_zero v = false.
Proof.
  intros Hl. rewrite dense_to_coo_spec by exact Hl. eexists; split; [ reflexivity | ]. split; [ | split ].
  - rewrite map_map. cbn [fst]. rewrite map_id. apply NoDup_filter, NoDup_nest.
  - assert (Hs : StronglySorted (fun s t => fst s < fst t \/ (fst s = fst t /\ snd s < snd t))
                   (filter (nz dim mat) (nest dim dim))).
    { assert (Hn : forall n a m, StronglySorted (fun s t : nat * nat => fst s < fst t \/ (fst s = fst t /\ snd s < snd t))
                (flat_map (fun i => map (fun j => (i, j)) (seq 0 m)) (seq a n))).
      { induction n as [|n IH]; intros a m; [ constructor | ]. cbn [seq flat_map].
        assert (Happ : forall l1 l2, StronglySorted (fun s t : nat * nat => fst s < fst t \/ (fst s = fst t /\ snd s < snd t)) l1 ->
           StronglySorted (fun s t : nat * nat => fst s < fst t \/ (fst s = fst t /\ snd s < snd t)) l2 ->
           (forall x y, In x l1 -> In y l2 -> fst x < fst y \/ (fst x = fst y /\ snd x < snd y)) ->
           StronglySorted (fun s t : nat * nat => fst s < fst t \/ (fst s = fst t /\ snd s < snd t)) (l1 ++ l2)).
        { induction l1 as [|x l1 IHl]; intros l2 H1 H2 H3; [ exact H2 | ]. inversion H1; subst. cbn. constructor.
          - apply IHl; try assumption. intros; apply H3; [ right | ]; assumption.
          - apply Forall_app. split; [ assumption | ]. apply Forall_forall. intros y Hy. apply H3; [ left; reflexivity | exact Hy ]. }
        apply Happ.
        - assert (G : forall k b, StronglySorted (fun s t : nat * nat => fst s < fst t \/ (fst s = fst t /\ snd s < snd t))
                        (map (fun j => (a, j)) (seq b k))).
          { induction k as [|k IHk]; intros b; [ constructor | ]. cbn. constructor; [ apply IHk | ].
            apply Forall_forall. intros y Hy. apply in_map_iff in Hy. destruct Hy as (j & <- & Hj). apply in_seq in Hj. cbn. lia. }
          apply G.
        - apply IH.
        - intros x y Hx Hy. apply in_map_iff in Hx. destruct Hx as (j & <- & _).
          apply in_flat_map in Hy. destruct Hy as (i & Hi & Hy). apply in_map_iff in Hy. destruct Hy as (j' & <- & _).
          apply in_seq in Hi. cbn. lia. }
      specialize (Hn dim 0 dim). unfold nest. revert Hn. generalize (flat_map (fun i => map (fun j => (i, j)) (seq 0 dim)) (seq 0 dim)).
      intros l Hs. induction Hs as [|x l Hs IH Hx]; [ constructor | ]. cbn. destruct (nz dim mat x); [ | exact IH ].
      constructor; [ exact IH | ]. rewrite Forall_forall in *. intros y Hy. apply Hx. apply filter_In in Hy. tauto. }
    clear Hl. induction Hs as [|x l Hs IH Hx]; [ constructor | ]. cbn. constructor; [ exact IH | ].
    rewrite Forall_forall in *. intros y Hy. apply in_map_iff in Hy. destruct Hy as (z & <- & Hz). apply Hx, Hz.
  - intros r c v. rewrite in_map_iff. split.
    + intros ([i j] & E & Hf). injection E as -> -> <-. apply filter_In in Hf. destruct Hf as [Hf Hn].
      apply in_nest in Hf. unfold nz in Hn. cbn [fst snd] in *. apply Bool.negb_true_iff in Hn.
      repeat split; try tauto. apply nth_error_nth'. rewrite Hl. apply rm_lt; tauto.
    + intros (Hr & Hc & Hv & Hz). exists (r, c). cbn [fst snd]. pose proof (nth_error_nth _ _ zero Hv) as En.
      rewrite En. split; [ reflexivity | ]. apply filter_In. split; [ apply in_nest; auto | ].
      unfold nz. cbn [fst snd]. rewrite En, Hz. reflexivity.
Qed.
End Dense.

Lemma sorted_combine_snd (rows cols : list nat) : length cols = length rows ->
  StronglySorted (fun x y : nat * nat => snd x < snd y \/ (snd x = snd y /\ fst x <= fst y)) (combine rows cols) ->
  StronglySorted le cols.
Proof.
  revert cols; induction rows as [|r rows IH]; intros [|c cols] Hl Hs; cbn in Hl; try lia; [ constructor | ].
  cbn in Hs. inversion Hs as [|? ? Hs' Hx]; subst. constructor; [ apply IH; [ lia | exact Hs' ] | ].
  rewrite Forall_forall in *. intros c' Hc'.
  destruct (In_nth cols c' 0 Hc') as (k & Hk & <-).
  assert (Hin : In (nth k rows 0, nth k cols 0) (combine rows cols)).
  { rewrite <- combine_nth by lia. apply nth_In. rewrite combine_length. lia. }
  apply Hx in Hin. cbn in Hin. lia.
Qed.

Lemma p123_pipeline {V} dim rows cols (vals : list V) idx :
  length cols = length rows -> length vals = length rows -> (Z.of_nat dim < 2 ^ 31)%Z ->
  (forall r, In r rows -> r < dim) -> (forall c, In c cols -> c < dim) ->
  sort_indexes_contract (keys_col_major dim rows cols) idx ->
  exists rows' cols' vals',
    apply_sort rows cols vals idx = Ok (rows', cols', vals') /\
    length rows' = length rows /\ length cols' = length rows /\ length vals' = length rows /\
    Permutation (combine (combine rows' cols') vals') (combine (combine rows cols) vals) /\
    length (coo_to_csr cols' dim) = dim + 1 /\ nth_error (coo_to_csr cols' dim) 0 = Some 0 /\
    nth_error (coo_to_csr cols' dim) dim = Some (length rows) /\
    forall c, c < dim -> exists a b,
      nth_error (coo_to_csr cols' dim) c = Some a /\ nth_error (coo_to_csr cols' dim) (c + 1) = Some b /\
      a <= b <= length rows /\ forall j, j < length rows -> (a <= j < b <-> nth j cols' 0 = c).
Proof.
  intros Hc Hv Hd Hr Hcb Hs.
  destruct (sort_gen snd fst dim rows cols vals idx Hc Hv Hd) as (r & c & v & E & L1 & L2 & L3 & P & S).
  { intros [r c] Hin. split; [ apply Hcb; apply (in_combine_r _ _ _ _ Hin) | apply Hr; apply (in_combine_l _ _ _ _ Hin) ]. }
  { exact Hs. }
  exists r, c, v. split; [ exact E | ]. split; [ exact L1 | ]. split; [ exact L2 | ]. split; [ exact L3 | ]. split; [ exact P | ].
  assert (Hsc : StronglySorted le c) by (apply (sorted_combine_snd r c); [ congruence | exact S ]).
  assert (Hcb' : forall x, In x c -> x < dim).
  { intros x Hx. destruct (In_nth c x 0 Hx) as (k & Hk & Ek).
    destruct v as [|v0 v'] eqn:Ev; [ cbn in L3; lia | rewrite <- Ev in * ].
    assert (Hin : In (nth k r 0, nth k c 0, nth k v v0) (combine (combine r c) v)).
    { rewrite <- (combine_nth r c k 0 0) by congruence. rewrite <- (combine_nth (combine r c) v).
      - apply nth_In. rewrite !combine_length. lia.
      - rewrite combine_length. lia. }
    apply (Permutation_in _ P) in Hin. apply in_combine_l in Hin. apply in_combine_r in Hin.
    rewrite Ek in Hin. apply Hcb, Hin. }
  destruct (csr_spec c dim Hsc Hcb') as (K1 & K2 & K3 & K4). rewrite L2 in *.
  split; [ exact K1 | ]. split; [ exact K2 | ]. split; [ exact K3 | ]. exact K4.
Qed.

Lemma sort_row_major {V} dim rows cols (vals : list V) idx :
  length cols = length rows -> length vals = length rows -> (Z.of_nat dim < 2 ^ 31)%Z ->
  (forall r, In r rows -> r < dim) -> (forall c, In c cols -> c < dim) ->
  sort_indexes_contract (keys_row_major dim rows cols) idx ->
  exists rows' cols' vals',
    apply_sort rows cols vals idx = Ok (rows', cols', vals') /\
    length rows' = length rows /\ length cols' = length rows /\ length vals' = length rows /\
    Permutation (combine (combine rows' cols') vals') (combine (combine rows cols) vals) /\
    StronglySorted (fun x y => fst x < fst y \/ (fst x = fst y /\ snd x <= snd y)) (combine rows' cols').
Proof.
  intros Hc Hv Hd Hr Hcb Hs. apply (sort_gen fst snd dim); try assumption.
  intros [r c] Hin. split; [ apply Hr; apply (in_combine_l _ _ _ _ Hin) | apply Hcb; apply (in_combine_r _ _ _ _ Hin) ].
Qed.
Lemma sort_col_major {V} dim rows cols (vals : list V) idx :
  length cols = length rows -> length vals = length rows -> (Z.of_nat dim < 2 ^ 31)%Z ->
  (forall r, In r rows -> r < dim) -> (forall c, In c cols -> c < dim) ->
  sort_indexes_contract (keys_col_major dim rows cols) idx ->
  exists rows' cols' vals',
    apply_sort rows cols vals idx = Ok (rows', cols', vals') /\
    length rows' = length rows /\ length cols' = length rows /\ length vals' = length rows /\
    Permutation (combine (combine rows' cols') vals') (combine (combine rows cols) vals) /\
    StronglySorted (fun x y => snd x < snd y \/ (snd x = snd y /\ fst x <= fst y)) (combine rows' cols').
Proof.
  intros Hc Hv Hd Hr Hcb Hs. apply (sort_gen snd fst dim); try assumption.
  intros [r c] Hin. split; [ apply Hcb; apply (in_combine_r _ _ _ _ Hin) | apply Hr; apply (in_combine_l _ _ _ _ Hin) ].
Qed.
