(* The contracts of LAPACKE_zgetrf and solve_MM can be met: every matrix has a factorisation of the required form, and
   every regular system a solution.  The theorems that assume the contracts are therefore not empty. *)
From Coq Require Import Reals Lra List Arith Lia ClassicalEpsilon.
From Verif Require Import Common ArrayLib ResolventModel FaddeevModel DetModel DenseModel PadeLists FaddeevPropsLemmas.
From Verif Require DetLaplace.
Import ListNotations.
Open Scope nat_scope.

Lemma cx_dec (x : cdouble) : {x = c0} + {x <> c0}.
Proof. exact (excluded_middle_informative (x = c0)). Qed.
Lemma cmul_inv x : x <> c0 -> cmul (cinv x) x = c1.
Proof.
  destruct x as [a b]. intros H. assert (Hn : (a * a + b * b <> 0)%R).
  { intros E. apply H. unfold c0. assert (a = 0 /\ b = 0)%R as [-> ->]; [ | reflexivity ]. split; nra. }
  unfold cmul, cinv, c1. cbn [fst snd]. f_equal; field; exact Hn.
Qed.
Lemma cring_assoc x y z : cmul x (cmul y z) = cmul (cmul x y) z.
Proof. destruct x, y, z. unfold cmul. cbn [fst snd]. f_equal; ring. Qed.
Lemma ctotal_S f n : ctotal f (S n) = cadd (f 0) (ctotal (fun k => f (S k)) n).
Proof.
  induction n as [|n IH]; [ cbn; destruct (f 0); unfold cadd, c0; cbn; f_equal; ring | ].
  change (ctotal f (S (S n))) with (cadd (ctotal f (S n)) (f (S n))). rewrite IH. cbn [ctotal]. destruct (f 0), (ctotal (fun k => f (S k)) n), (f (S n)).
  unfold cadd. cbn [fst snd]. f_equal; ring.
Qed.

(* row interchanges below the first row *)
Definition ichg (l : list nat) (ipiv : list nat) (f : nat -> nat -> cdouble) : nat -> nat -> cdouble :=
  fold_left (fun f i => swapped i (nth i ipiv 0 - 1) f) l f.
Lemma ichg_ext l ipiv f g : (forall r c, f r c = g r c) -> forall r c, ichg l ipiv f r c = ichg l ipiv g r c.
Proof.
  revert f g. induction l as [|i l IH]; intros f g H r c; [ apply H | ]. apply IH. intros r' c'. unfold swapped. apply H.
Qed.
Lemma shift p ipiv n st f : (forall i, i < length ipiv -> 1 <= nth i ipiv 0) -> st + n <= length ipiv ->
  (forall c, ichg (seq (S st) n) (p :: map S ipiv) f 0 c = f 0 c) /\
  (forall r c, ichg (seq (S st) n) (p :: map S ipiv) f (S r) c = ichg (seq st n) ipiv (fun r c => f (S r) c) r c).
Proof.
  intros Hp. revert st f. induction n as [|n IH]; intros st f Hn; [ split; reflexivity | ]. cbn [seq].
  destruct (IH (S st) (swapped (S st) (nth (S st) (p :: map S ipiv) 0 - 1) f) ltac:(lia)) as [H1 H2].
  assert (E : nth (S st) (p :: map S ipiv) 0 - 1 = S (nth st ipiv 0 - 1)).
  { cbn [nth]. rewrite (nth_indep _ 0 (S 0)) by (rewrite map_length; lia). rewrite map_nth. specialize (Hp st ltac:(lia)). lia. }
  rewrite E in *. split.
  - intros c. cbn [ichg fold_left] in *. change (fold_left _ (seq (S (S st)) n) ?g) with (ichg (seq (S (S st)) n) (p :: map S ipiv) g). rewrite E, H1. reflexivity.
  - intros r c. cbn [ichg fold_left]. change (fold_left _ (seq (S (S st)) n) ?g) with (ichg (seq (S (S st)) n) (p :: map S ipiv) g).
    rewrite E, H2. change (fold_left (fun f i => swapped i (nth i ipiv 0 - 1) f) (seq (S st) n) ?g) with (ichg (seq (S st) n) ipiv g).
    apply ichg_ext. intros r' c'. unfold swapped. cbn [Nat.eqb]. destruct (r' =? st); [ reflexivity | ]. destruct (r' =? nth st ipiv 0 - 1); reflexivity.
Qed.

(* interchanges act row by row *)
Lemma ichg_rows l ipiv : exists s : nat -> nat, forall f r c, ichg l ipiv f r c = f (s r) c.
Proof.
  induction l as [|i l IH]; [ exists (fun r => r); reflexivity | ]. destruct IH as [s Hs].
  exists (fun r => if s r =? i then nth i ipiv 0 - 1 else if s r =? nth i ipiv 0 - 1 then i else s r). intros f r c.
  cbn [ichg fold_left]. change (fold_left _ l ?g) with (ichg l ipiv g). rewrite Hs. reflexivity.
Qed.
Lemma ichg_range l ipiv n : (forall i, In i l -> i < n /\ 1 <= nth i ipiv 0 <= n) -> exists s : nat -> nat,
  (forall r, r < n -> s r < n) /\ forall f r c, ichg l ipiv f r c = f (s r) c.
Proof.
  induction l as [|i l IH]; intros H; [ exists (fun r => r); split; [ auto | reflexivity ] | ]. destruct IH as (s & Hn & Hs); [ intros j Hj; apply H; right; exact Hj | ].
  exists (fun r => if s r =? i then nth i ipiv 0 - 1 else if s r =? nth i ipiv 0 - 1 then i else s r). split.
  - intros r Hr. destruct (H i (or_introl eq_refl)) as [H1 H2]. specialize (Hn r Hr). destruct (s r =? i); [ lia | ]. destruct (s r =? nth i ipiv 0 - 1); lia.
  - intros f r c. cbn [ichg fold_left]. change (fold_left _ l ?g) with (ichg l ipiv g). rewrite Hs. reflexivity.
Qed.

Lemma pivot f n : exists p, p < S n /\ (f p 0 <> c0 \/ forall r, r < S n -> f r 0 = c0).
Proof.
  induction n as [|n (p & Hp & H)].
  - exists 0. split; [ lia | ]. destruct (cx_dec (f 0 0)) as [E|E]; [ right; intros r Hr; replace r with 0 by lia; exact E | left; exact E ].
  - destruct H as [H|H]; [ exists p; split; [ lia | left; exact H ] | ].
    destruct (cx_dec (f (S n) 0)) as [E|E]; [ | exists (S n); split; [ lia | left; exact E ] ].
    exists 0. split; [ lia | ]. right. intros r Hr. destruct (Nat.eq_dec r (S n)) as [->|]; [ exact E | apply H; lia ].
Qed.

(* unit lower times upper, as functions *)
Definition low (L : nat -> nat -> cdouble) (i j : nat) : cdouble := if j <? i then L i j else if j =? i then c1 else c0.
Definition upp (U : nat -> nat -> cdouble) (i j : nat) : cdouble := if i <=? j then U i j else c0.
Lemma factor n : forall f, exists ipiv LU, length ipiv = n /\ (forall i, i < n -> i + 1 <= nth i ipiv 0 <= n) /\
  forall i j, i < n -> j < n -> ichg (seq 0 n) ipiv f i j = ctotal (fun k => cmul (low LU i k) (upp LU k j)) n.
Proof.
  induction n as [|n IH]; intros f.
  - exists [], (fun _ _ => c0). split; [ reflexivity | ]. split; intros; lia.
  - destruct (pivot f n) as (p & Hp & Hpv). pose (g := swapped 0 p f). pose (a := g 0 0).
    assert (Hz : a = c0 -> forall r, r < S n -> g r 0 = c0).
    { intros Ha r Hr. unfold a, g, swapped in *. cbn [Nat.eqb] in Ha. destruct Hpv as [Hpv|Hpv]; [ contradiction | ]. apply Hpv.
      destruct (r =? 0); [ lia | ]. destruct (r =? p); lia. }
    pose (l := fun r => if cx_dec a then c0 else cmul (g (S r) 0) (cinv a)).
    assert (Hl : forall r, r < n -> g (S r) 0 = cmul (l r) a).
    { intros r Hr. unfold l. destruct (cx_dec a) as [Ha|Ha]; [ rewrite (Hz Ha) by lia; rewrite cmul_0_l; reflexivity | ].
      rewrite <- cring_assoc, cmul_inv by exact Ha. rewrite cmul_1_r. reflexivity. }
    pose (B := fun r c => cadd (g (S r) (S c)) (copp (cmul (l r) (g 0 (S c))))).
    destruct (IH B) as (ipiv & LU & Hlen & Hrng & HB).
    destruct (ichg_range (seq 0 n) ipiv n) as (s & Hs & Hse). { intros i Hi. apply in_seq in Hi. specialize (Hrng i ltac:(lia)). lia. }
    exists (S p :: map S ipiv), (fun i j => match i, j with O, _ => g 0 j | S i', O => l (s i') | S i', S j' => LU i' j' end).
    split; [ cbn [length]; rewrite map_length, Hlen; reflexivity | ]. split.
    + intros [|i] Hi; [ cbn [nth]; lia | ]. cbn [nth]. rewrite (nth_indep _ 0 (S 0)) by (rewrite map_length; lia). rewrite map_nth. specialize (Hrng i ltac:(lia)). lia.
    + cbn [seq]. assert (Hst : forall i j, ichg (0 :: seq 1 n) (S p :: map S ipiv) f i j = ichg (seq 1 n) (S p :: map S ipiv) g i j).
      { intros i j. cbn [ichg fold_left nth]. replace (S p - 1) with p by lia. reflexivity. }
      destruct (shift (S p) ipiv n 0 g) as [S0 S1]. { intros i Hi. specialize (Hrng i ltac:(lia)). lia. } { lia. }
      intros i j Hi Hj. rewrite Hst, ctotal_S. destruct i as [|i].
      * rewrite S0. unfold low at 1, upp at 1. cbn [Nat.ltb Nat.leb Nat.eqb]. rewrite cmul_1_l.
        rewrite (ctotal_ext _ (fun _ => c0)). 2:{ intros k Hk. unfold low. cbn [Nat.ltb Nat.leb Nat.eqb]. apply cmul_0_l. }
        assert (Hc0 : forall m, ctotal (fun _ => c0) m = c0) by (induction m as [|m IHm]; [ reflexivity | cbn [ctotal]; rewrite IHm; apply cadd_0_l ]).
        rewrite Hc0, cadd_0_r. reflexivity.
      * rewrite S1. unfold low at 1, upp at 1. cbn [Nat.ltb Nat.leb Nat.eqb]. rewrite Hse. destruct j as [|j].
        { rewrite Hl by (apply Hs; lia). fold a.
          rewrite (ctotal_ext _ (fun _ => c0)). 2:{ intros k Hk. unfold upp. cbn [Nat.leb]. apply cmul_0_r. }
          assert (Hc0 : forall m, ctotal (fun _ => c0) m = c0) by (induction m as [|m IHm]; [ reflexivity | cbn [ctotal]; rewrite IHm; apply cadd_0_l ]).
          rewrite Hc0, cadd_0_r. reflexivity. }
        specialize (HB i j ltac:(lia) ltac:(lia)). rewrite Hse in HB. unfold B in HB.
        rewrite (ctotal_ext _ (fun k => cmul (low LU i k) (upp LU k j))).
        2:{ intros k Hk. unfold low, upp. cbn [Nat.leb Nat.eqb]. change (S k <? S i) with (k <? i). reflexivity. }
        rewrite <- HB. destruct (g (S (s i)) (S j)), (cmul (l (s i)) (g 0 (S j))). unfold cadd, copp. cbn [fst snd]. f_equal; ring.
Qed.

Theorem getrf_exists : exists getrf, getrf_contract getrf.
Proof.
  assert (H : forall An : list cdouble * nat, exists r, getrf_ok (snd An) (fst An) (fst r) (snd r)).
  { intros [A n]. cbn [fst snd]. destruct (factor n (fun r c => nth (r * n + c) A c0)) as (ipiv & LU & _ & H1 & H2).
    pose (lu := map (fun rc => LU (fst rc) (snd rc)) (nest n n)). exists (lu, ipiv). split; [ exact H1 | ]. intros i j Hi Hj. cbn [fst snd].
    change (interchanged n ipiv ?f) with (ichg (seq 0 n) ipiv f). rewrite H2 by assumption. apply ctotal_ext. intros k Hk.
    assert (Hlu : forall r c, r < n -> c < n -> nth (r * n + c) lu c0 = LU r c).
    { intros r c Hr Hc. unfold lu. rewrite <- (app_nil_r (map _ _)). exact (nth_top (fun rc => LU (fst rc) (snd rc)) [] n n r c Hr Hc). }
    unfold lower, upper, low, upp. rewrite !Hlu by assumption. reflexivity. }
  exists (fun A n => proj1_sig (constructive_indefinite_description _ (H (A, n)))). intros A n.
  exact (proj2_sig (constructive_indefinite_description _ (H (A, n)))).
Qed.
Theorem solve_exists : exists solve, solve_contract solve.
Proof.
  assert (H : forall t : list cdouble * list cdouble * nat, let '(L, R, n) := t in exists X, length X = n * n /\
     (regular n (fun i k => nth (i * n + k) L c0) -> forall i j, i < n -> j < n ->
        ctotal (fun k => cmul (nth (i * n + k) L c0) (nth (k * n + j) X c0)) n = nth (i * n + j) R c0)).
  { intros [[L R] n]. destruct (excluded_middle_informative (regular n (fun i k => nth (i * n + k) L c0))) as [Hr|Hr].
    - destruct (DetLaplace.regular_solvable (fun i j => nth (i * n + j) R c0) Hr) as [X HX].
      exists (map (fun rc => X (fst rc) (snd rc)) (nest n n)). split; [ rewrite map_length, nest_len; reflexivity | ]. intros _ i j Hi Hj. cbv beta in HX.
      rewrite <- (HX i j Hi Hj). apply ctotal_ext. intros k Hk. f_equal.
      rewrite <- (app_nil_r (map _ _)). exact (nth_top (fun rc => X (fst rc) (snd rc)) [] n n k j Hk Hj).
    - exists (repeat c0 (n * n)). split; [ apply repeat_length | ]. intros Hx. contradiction. }
  exists (fun L R n => proj1_sig (constructive_indefinite_description _ (H (L, R, n)))). intros L R n _ _.
  exact (proj2_sig (constructive_indefinite_description _ (H (L, R, n)))).
Qed.
