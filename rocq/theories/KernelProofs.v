(* Proofs for the block arrays of solve_faddeev.cpp. *)
From Coq Require Import Reals Lra.
From Verif Require Import Common ArrayLib PWModel PWSpec SwpModel SparseModel SparseProofs GridSpec GridPropsLemmas PermPropsLemmas
  PotentialSpec PotentialProofs KernelModel KernelSpec.
Open Scope nat_scope.

Lemma rsum_sum f n : rsum f n = sum f n.
Proof. induction n as [|n IH]; [ reflexivity | ]. rewrite sum_S. cbn [rsum]. rewrite IH. reflexivity. Qed.

Lemma nth_firstn_lt {A} (l : list A) n i d : i < n -> nth i (firstn n l) d = nth i l d.
Proof.
  revert l i; induction n as [|n IH]; intros [|x l] [|i] H; cbn; try lia; try reflexivity. apply IH. lia.
Qed.
Lemma nth_skipn_add {A} (l : list A) n i d : nth i (skipn n l) d = nth (n + i) l d.
Proof. revert l; induction n as [|n IH]; intros [|x l]; cbn; try reflexivity; [ destruct i; reflexivity | apply IH ]. Qed.

Lemma aslice_ok {A} (a : list A) off n d : off + n <= length a ->
  exists l, aslice a off n = Ok l /\ length l = n /\ forall i, i < n -> nth i l d = nth (off + i) a d.
Proof.
  intros H. unfold aslice. destruct (Nat.leb_spec (off + n) (length a)); [ | lia ].
  eexists. split; [ reflexivity | ]. split; [ rewrite firstn_length, skipn_length; lia | ].
  intros i Hi. rewrite nth_firstn_lt by exact Hi. apply nth_skipn_add.
Qed.
Lemma ablit_ok {A} (a l : list A) off d : off + length l <= length a ->
  exists a', ablit a off l = Ok a' /\ length a' = length a /\
    (forall i, i < length l -> nth (off + i) a' d = nth i l d) /\
    (forall i, i < off \/ off + length l <= i -> nth i a' d = nth i a d).
Proof.
  intros H. unfold ablit. destruct (Nat.leb_spec (off + length l) (length a)); [ | lia ].
  assert (Lf : length (firstn off a) = off) by (rewrite firstn_length; lia).
  eexists. split; [ reflexivity | ]. split; [ rewrite !app_length, Lf, skipn_length; lia | ]. split.
  - intros i Hi. rewrite app_nth2 by lia. rewrite Lf. replace (off + i - off) with i by lia. apply app_nth1. exact Hi.
  - intros i [Hi|Hi].
    + rewrite app_nth1 by lia. apply nth_firstn_lt. exact Hi.
    + rewrite app_nth2 by lia. rewrite app_nth2 by lia. rewrite Lf, nth_skipn_add. f_equal. lia.
Qed.

Lemma per_channel {A} (F : nat -> outcome (list A)) (G : nat -> list A -> Prop) (d : A) s n init :
  (forall k, k < n -> exists m, F k = Ok m /\ length m = s /\ G k m) -> length init = n * s ->
  exists out, ofold (fun t k => do x <- F k; ablit t (k * s) x) (seq 0 n) init = Ok out /\ length out = n * s /\
    forall k, k < n -> exists m, G k m /\ length m = s /\ forall i, i < s -> nth (k * s + i) out d = nth i m d.
Proof.
  intros HF Hl.
  destruct (ofold_inv (fun dn t => length t = n * s /\
       forall k, In k dn -> exists m, G k m /\ length m = s /\ forall i, i < s -> nth (k * s + i) t d = nth i m d)
     (fun t k => do x <- F k; ablit t (k * s) x) (seq 0 n) init) as (out & E & L & H).
  - split; [ exact Hl | intros k [] ].
  - intros dn k r t Hs (L & H).
    assert (Hk : In k (seq 0 n)) by (rewrite Hs; apply in_or_app; right; left; reflexivity).
    assert (Nd : ~ In k dn).
    { intros Hin. pose proof (seq_NoDup n 0) as ND. rewrite Hs in ND. apply NoDup_remove_2 in ND. apply ND, in_or_app. left; exact Hin. }
    apply in_seq in Hk. destruct (HF k ltac:(lia)) as (m & Ek & Lk & Gk). rewrite Ek. cbn [obind].
    destruct (ablit_ok t m (k * s) d) as (t' & Et & Lt & W & O); [ rewrite L, Lk; nia | ].
    exists t'. split; [ exact Et | ]. split; [ congruence | ].
    intros k' Hin. apply in_app_iff in Hin. destruct Hin as [Hin|[<-|[]]].
    + destruct (H k' Hin) as (m' & G' & L' & H'). exists m'. split; [ exact G' | ]. split; [ exact L' | ].
      intros i Hi. rewrite O; [ apply H'; assumption | ]. rewrite Lk. assert (k' <> k) by congruence.
      destruct (Nat.lt_ge_cases k' k); [ left | right ]; nia.
    + exists m. split; [ exact Gk | ]. split; [ exact Lk | ]. intros i Hi. apply W. lia.
  - exists out. split; [ exact E | ]. split; [ exact L | ]. intros k Hk. apply H, in_seq; lia.
Qed.

Lemma ofold_read_write {A B X} (m : list A) (rd wrt : X -> nat) (g : A -> B) l t d :
  (forall x, In x l -> rd x < length m /\ wrt x < length t) ->
  (forall x y, In x l -> In y l -> wrt x = wrt y -> rd x = rd y) ->
  exists t', ofold (fun t x => do v <- aread m (rd x); awrite t (wrt x) (g v)) l t = Ok t' /\ length t' = length t /\
    forall x, In x l -> nth_error t' (wrt x) = Some (g (nth (rd x) m d)).
Proof.
  intros Hb Hi.
  destruct (scatter wrt (fun x => g (nth (rd x) m d)) l t) as (t' & E & L & W & _).
  - intros x Hx. apply (Hb x Hx).
  - intros x y Hx Hy E. rewrite (Hi x y Hx Hy E). reflexivity.
  - exists t'. split; [ | split; assumption ]. rewrite <- E. apply ofold_ext. intros x s Hx.
    destruct (aread_ok m (rd x)) as (v & Ev & Nv); [ apply (Hb x Hx) | ]. rewrite Ev. cbn [obind].
    rewrite (nth_error_nth m _ d Nv). reflexivity.
Qed.

Definition quads (Np : nat) : list (nat * nat * nat * nat) :=
  flat_map (fun cb => flat_map (fun rb => flat_map (fun col => map (fun row => (cb, rb, col, row)) (seq 0 Np))
     (seq 0 Np)) (seq 0 2)) (seq 0 2).
Lemma in_quads Np cb rb col row : In (cb, rb, col, row) (quads Np) <-> cb < 2 /\ rb < 2 /\ col < Np /\ row < Np.
Proof.
  unfold quads. rewrite in_flat_map. split.
  - intros (c & Hc & H). apply in_flat_map in H. destruct H as (r & Hr & H). apply in_flat_map in H.
    destruct H as (co & Hco & H). apply in_map_iff in H. destruct H as (ro & E & Hro). injection E as -> -> -> ->.
    apply in_seq in Hc, Hr, Hco, Hro. lia.
  - intros (H1 & H2 & H3 & H4). exists cb. split; [ apply in_seq; lia | ]. apply in_flat_map. exists rb.
    split; [ apply in_seq; lia | ]. apply in_flat_map. exists col. split; [ apply in_seq; lia | ].
    apply in_map_iff. exists row. split; [ reflexivity | apply in_seq; lia ].
Qed.

Lemma restructure_ok {A} (m : list A) Np d : length m = 2 * Np * (2 * Np) ->
  exists out, restructure m Np = Ok out /\ length out = 2 * Np * (2 * Np) /\
    forall cb rb col row, cb < 2 -> rb < 2 -> col < Np -> row < Np ->
      nth ((cb * 2 + rb) * (Np * Np) + col * Np + row) out d = nth ((cb * Np + col) * (2 * Np) + (rb * Np + row)) m d.
Proof.
  intros Hl. unfold restructure.
  set (rd := fun q : nat * nat * nat * nat => let '(cb, rb, col, row) := q in (col + Np * cb) * 2 * Np + (row + Np * rb)).
  set (wt := fun q : nat * nat * nat * nat => let '(cb, rb, col, row) := q in cb * 2 * Np * Np + rb * Np * Np + col * Np + row).
  match goal with |- context [ofold ?F (seq 0 2) ?t0] =>
    assert (EF : ofold F (seq 0 2) t0 = ofold (fun t q => do v <- aread m (rd q); awrite t (wt q) (Some v)) (quads Np) t0) end.
  { unfold quads. apply ofold_flat. intros cb s _. apply ofold_flat. intros rb s' _. apply ofold_flat. intros col s'' _.
    rewrite ofold_map. reflexivity. }
  rewrite EF. clear EF.
  assert (Hw : forall cb rb col row, cb < 2 -> rb < 2 -> col < Np -> row < Np ->
     cb * 2 * Np * Np + rb * Np * Np + col * Np + row = ((cb * 2 + rb) * Np + col) * Np + row) by (intros; ring).
  assert (Hr : forall cb rb col row,
     (col + Np * cb) * 2 * Np + (row + Np * rb) = (cb * Np + col) * (2 * Np) + (rb * Np + row)) by (intros; ring).
  destruct (ofold_read_write m rd wt Some (quads Np) (repeat None (4 * Np * Np)) d) as (t & Et & Lt & Ht).
  - intros [[[cb rb] col] row] Hq. apply in_quads in Hq. destruct Hq as (H1 & H2 & H3 & H4). unfold rd, wt.
    rewrite Hw, Hr, Hl, repeat_length by assumption. split; [ apply rm_lt; nia | ].
    apply Nat.lt_le_trans with (2 * 2 * Np * Np); [ | lia ]. apply rm_lt; [ | assumption ]. apply rm_lt; [ lia | assumption ].
  - intros [[[cb rb] col] row] [[[cb' rb'] col'] row'] Hq Hq'. apply in_quads in Hq, Hq'.
    destruct Hq as (H1 & H2 & H3 & H4). destruct Hq' as (H1' & H2' & H3' & H4'). unfold rd, wt.
    rewrite !Hw by assumption. intros E. apply rm_inj in E; [ | assumption.. ]. destruct E as [E ->].
    apply rm_inj in E; [ | assumption.. ]. destruct E as [E ->]. assert (cb = cb' /\ rb = rb') as [-> ->] by lia. reflexivity.
  - rewrite Et. cbn [obind]. rewrite repeat_length in Lt.
    destruct (all_init_ok t) as (b & Eb & Lb & Hb).
    { intros i Hi. rewrite Lt in Hi. replace (4 * Np * Np) with (2 * 2 * Np * Np) in Hi by lia.
      destruct (rm_surj _ _ i Hi) as (x & row & Hx & Hrow & ->). destruct (rm_surj _ _ x Hx) as (y & col & Hy & Hcol & ->).
      destruct (rm_surj _ _ y Hy) as (cb & rb & Hcb & Hrb & ->).
      specialize (Ht (cb, rb, col, row)). unfold wt in Ht. rewrite Hw in Ht by assumption. rewrite Ht by (apply in_quads; auto).
      eexists; reflexivity. }
    exists b. split; [ exact Eb | ]. split; [ lia | ]. intros cb rb col row H1 H2 H3 H4.
    specialize (Ht (cb, rb, col, row) (proj2 (in_quads _ _ _ _ _) (conj H1 (conj H2 (conj H3 H4))))).
    unfold wt, rd in Ht. rewrite Hr in Ht. apply Hb in Ht. apply nth_error_nth. rewrite <- Ht. f_equal. ring.
Qed.

Lemma transpose_nth (m : list R) dim : length m = dim * dim ->
  exists out, simple_transpose R m dim = Ok out /\ length out = dim * dim /\
    forall r c, r < dim -> c < dim -> nth (r * dim + c) out 0%R = nth (c * dim + r) m 0%R.
Proof.
  intros H. destruct (transpose_spec R m dim H) as (o & E & L & Hn). exists o. split; [ exact E | ]. split; [ exact L | ].
  intros r c Hr Hc. specialize (Hn r c Hr Hc).
  destruct (aread_ok m (c * dim + r)) as (v & _ & Nv); [ rewrite H; apply rm_lt; assumption | ].
  rewrite (nth_error_nth _ _ _ Nv). rewrite Nv in Hn. apply nth_error_nth. exact Hn.
Qed.

Lemma nth_map_nest {B} (f : nat * nat -> B) n m i j d : i < n -> j < m ->
  nth (i * m + j) (map f (nest n m)) d = f (i, j).
Proof.
  intros Hi Hj. apply nth_error_nth. rewrite nth_error_map.
  enough (nth_error (nest n m) (i * m + j) = Some (i, j)) as -> by reflexivity.
  unfold nest. assert (G : forall k a, i < k -> nth_error (flat_map (fun i => map (fun j => (i, j)) (seq 0 m)) (seq a k)) (i * m + j) = Some (a + i, j)).
  { clear n Hi. induction i as [|i IH]; intros k a Hi; (destruct k as [|k]; [ lia | ]); cbn [seq flat_map].
    - rewrite nth_error_app1 by (rewrite map_length, seq_length; lia). rewrite nth_error_map.
      replace (0 * m + j) with j by lia. rewrite (nth_error_nth' (seq 0 m) 0) by (rewrite seq_length; lia).
      rewrite seq_nth by lia. cbn. f_equal. f_equal. lia.
    - rewrite nth_error_app2 by (rewrite map_length, seq_length; lia). rewrite map_length, seq_length.
      replace (S i * m + j - m) with (i * m + j) by lia. rewrite IH by lia. f_equal. f_equal. lia. }
  rewrite (G n 0) by exact Hi. reflexivity.
Qed.
Lemma length_nest n m : length (nest n m) = n * m.
Proof.
  unfold nest. generalize 0 at 2 as a. induction n as [|n IH]; intros a; [ reflexivity | ]. cbn [seq flat_map].
  rewrite app_length, IH, map_length, seq_length. lia.
Qed.
Lemma dot_MM_nth A B n i j : i < n -> j < n ->
  nth (i * n + j) (dot_MM A B n) 0%R = sum (fun k => (nth (i * n + k) A 0 * nth (k * n + j) B 0)%R) n.
Proof. intros Hi Hj. unfold dot_MM. rewrite nth_map_nest by assumption. cbn [fst snd]. apply rsum_sum. Qed.

(* what one channel's block array must contain, for the matrix M given elementwise *)
Definition unco_has (arr : list R) (Np n : nat) (M : nat -> nat -> nat -> R) : Prop :=
  length arr = n * (Np * Np) /\
  forall k x y, k < n -> x < Np -> y < Np -> nth (k * (Np * Np) + x * Np + y) arr 0%R = M k x y.
Definition coup_has (arr : list R) (Np n : nat) (M : nat -> nat -> nat -> R) : Prop :=
  length arr = n * (2 * Np * (2 * Np)) /\
  forall k bx by_ x y, k < n -> bx < 2 -> by_ < 2 -> x < Np -> y < Np ->
    nth (k * (2 * Np * (2 * Np)) + (bx * 2 + by_) * (Np * Np) + x * Np + y) arr 0%R = M k (bx * Np + x) (by_ * Np + y).

(* common core: transposing (and restructuring) the matrices given elementwise by Q *)
Lemma finish_matrices (coup : bool) (F : nat -> outcome (list R)) (Q : nat -> nat -> nat -> R) n Np init :
  let d := if coup then 2 * Np else Np in
  (forall k, k < n -> exists m, F k = Ok m /\ length m = d * d /\
     forall x y, x < d -> y < d -> nth (x * d + y) m 0%R = Q k x y) ->
  length init = n * (d * d) ->
  exists out, ofold (fun t k => do x <- (do m <- F k; do m <- simple_transpose R m d; if coup then restructure m Np else Ok m);
                                ablit t (k * (d * d)) x) (seq 0 n) init = Ok out /\
    (if coup then coup_has else unco_has) out Np n (fun k x y => Q k y x).
Proof.
  intros d HF Hl. subst d. destruct coup.
  - destruct (per_channel (fun k => do m <- F k; do m <- simple_transpose R m (2 * Np); restructure m Np)
      (fun k m => forall cb rb col row, cb < 2 -> rb < 2 -> col < Np -> row < Np ->
         nth ((cb * 2 + rb) * (Np * Np) + col * Np + row) m 0%R = Q k (rb * Np + row) (cb * Np + col))
      0%R (2 * Np * (2 * Np)) n init) as (out & E & L & H).
    + intros k Hk. destruct (HF k Hk) as (m & Em & Lm & Hm). destruct (transpose_nth m (2 * Np) Lm) as (o & Eo & Lo & Ho).
      destruct (restructure_ok o Np 0%R Lo) as (o2 & Eo2 & Lo2 & Ho2). exists o2. rewrite Em. cbn [obind]. rewrite Eo. cbn [obind].
      split; [ exact Eo2 | ]. split; [ exact Lo2 | ]. intros cb rb col row H1 H2 H3 H4. rewrite Ho2 by assumption.
      rewrite Ho by nia. apply Hm; nia.
    + exact Hl.
    + exists out. split; [ exact E | ]. split; [ exact L | ]. intros k bx by_ x y Hk H1 H2 H3 H4.
      destruct (H k Hk) as (m & Gm & Lm & Hm).
      replace (k * (2 * Np * (2 * Np)) + (bx * 2 + by_) * (Np * Np) + x * Np + y)
        with (k * (2 * Np * (2 * Np)) + ((bx * 2 + by_) * (Np * Np) + x * Np + y)) by lia.
      rewrite Hm; [ apply Gm; assumption | ].
      assert (x * Np + y < Np * Np) by (apply rm_lt; assumption). nia.
  - destruct (per_channel (fun k => do m <- F k; do m <- simple_transpose R m Np; Ok m)
      (fun k m => forall x y, x < Np -> y < Np -> nth (x * Np + y) m 0%R = Q k y x)
      0%R (Np * Np) n init) as (out & E & L & H).
    + intros k Hk. destruct (HF k Hk) as (m & Em & Lm & Hm). destruct (transpose_nth m Np Lm) as (o & Eo & Lo & Ho).
      exists o. rewrite Em. cbn [obind]. rewrite Eo. cbn [obind]. split; [ reflexivity | ]. split; [ exact Lo | ].
      intros x y Hx Hy. rewrite Ho by assumption. apply Hm; assumption.
    + exact Hl.
    + exists out. split; [ exact E | ]. split; [ exact L | ]. intros k x y Hk Hx Hy. destruct (H k Hk) as (m & Gm & Lm & Hm).
      replace (k * (Np * Np) + x * Np + y) with (k * (Np * Np) + (x * Np + y)) by lia.
      rewrite Hm by (apply rm_lt; assumption). apply Gm; assumption.
Qed.

(* element (x, y) of the k-th d x d matrix of an array *)
Definition melem (a : list R) (d k x y : nat) : R := nth (k * (d * d) + x * d + y) a 0%R.

Lemma slice_elem (a : list R) d k n : length a = n * (d * d) -> k < n ->
  exists m, aslice a (k * (d * d)) (d * d) = Ok m /\ length m = d * d /\
    forall x y, x < d -> y < d -> nth (x * d + y) m 0%R = melem a d k x y.
Proof.
  intros Hl Hk. destruct (aslice_ok a (k * (d * d)) (d * d) 0%R) as (m & E & L & H); [ rewrite Hl; nia | ].
  exists m. split; [ exact E | ]. split; [ exact L | ]. intros x y Hx Hy. rewrite H by (apply rm_lt; assumption).
  unfold melem. f_equal. lia.
Qed.

Lemma ct_matrices_ok (coup : bool) n Np C init :
  let d := if coup then 2 * Np else Np in
  length C = n * (d * d) -> length init = n * (d * d) ->
  exists out, ct_matrices coup n Np C init = Ok out /\
    (if coup then coup_has else unco_has) out Np n (fun k x y => melem C d k y x).
Proof.
  intros d Hc Hi.
  destruct (finish_matrices coup (fun k => aslice C (k * (d * d)) (d * d)) (melem C d) n Np init) as (out & E & H).
  - intros k Hk. exact (slice_elem C d k n Hc Hk).
  - exact Hi.
  - exists out. split; [ | exact H ]. rewrite <- E. unfold ct_matrices. fold d. apply ofold_ext. intros k t _.
    destruct (aslice C (k * (d * d)) (d * d)); cbn [obind]; try reflexivity. fold d.
    destruct (simple_transpose R l d); reflexivity.
Qed.

Lemma vc_matrices_ok (coup : bool) n Np V C init :
  let d := if coup then 2 * Np else Np in
  length V = n * (d * d) -> length C = n * (d * d) -> length init = n * (d * d) ->
  exists out, vc_matrices coup n Np V C init = Ok out /\
    (if coup then coup_has else unco_has) out Np n
      (fun k x y => sum (fun z => (melem V d k y z * melem C d k z x)%R) d).
Proof.
  intros d Hv Hc Hi.
  destruct (finish_matrices coup (fun k => do v <- aslice V (k * (d * d)) (d * d); do c <- aslice C (k * (d * d)) (d * d); Ok (dot_MM v c d))
     (fun k x y => sum (fun z => (melem V d k x z * melem C d k z y)%R) d) n Np init) as (out & E & H).
  - intros k Hk. destruct (slice_elem V d k n Hv Hk) as (v & Ev & Lv & Nv). destruct (slice_elem C d k n Hc Hk) as (c & Ec & Lc & Nc).
    exists (dot_MM v c d). fold d. rewrite Ev. cbn [obind]. rewrite Ec. cbn [obind]. split; [ reflexivity | ].
    split; [ unfold dot_MM; rewrite map_length, length_nest; reflexivity | ].
    intros x y Hx Hy. rewrite dot_MM_nth by assumption. apply sum_ext. intros z Hz. rewrite Nv, Nc by assumption. reflexivity.
  - exact Hi.
  - exists out. split; [ | exact H ]. rewrite <- E. unfold vc_matrices. fold d. apply ofold_ext. intros k t _.
    destruct (aslice V (k * (d * d)) (d * d)); cbn [obind]; try reflexivity.
    destruct (aslice C (k * (d * d)) (d * d)); cbn [obind]; try reflexivity. fold d.
    destruct (simple_transpose R (dot_MM l l0 d) d); reflexivity.
Qed.
