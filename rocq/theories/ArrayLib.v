(* Bounded arrays and loops in the outcome monad, with the generic lemmas the proofs use. *)
From Coq Require Import Permutation Sorted.
From Verif Require Import Common.
Open Scope nat_scope.

(* a[i] = v and a[i] on a bounded array: out of range is UB. *)
Definition awrite {A} (a : list A) (i : nat) (v : A) : outcome (list A) :=
  if i <? length a then Ok (firstn i a ++ v :: skipn (S i) a) else UB.
Definition aread {A} (a : list A) (i : nat) : outcome A :=
  match nth_error a i with Some v => Ok v | None => UB end.

(* for (x in l) s = f(s, x), stopping at the first failure. *)
Fixpoint ofold {S X} (f : S -> X -> outcome S) (l : list X) (s : S) : outcome S :=
  match l with
  | [] => Ok s
  | x :: r => do s' <- f s x; ofold f r s'
  end.

Lemma ofold_app {S X} (f : S -> X -> outcome S) l1 l2 s :
  ofold f (l1 ++ l2) s = do s' <- ofold f l1 s; ofold f l2 s'.
Proof.
  revert s; induction l1 as [|x l1 IH]; intros s; cbn; [ reflexivity | ].
  destruct (f s x); cbn; [ apply IH | reflexivity.. ].
Qed.

Lemma ofold_inv {S X} (P : list X -> S -> Prop) (f : S -> X -> outcome S) l s0 :
  P [] s0 ->
  (forall d x r s, l = d ++ x :: r -> P d s -> exists s', f s x = Ok s' /\ P (d ++ [x]) s') ->
  exists s', ofold f l s0 = Ok s' /\ P l s'.
Proof.
  intros H0 Hstep.
  assert (G : forall r d s, l = d ++ r -> P d s -> exists s', ofold f r s = Ok s' /\ P l s').
  { induction r as [|x r IH]; intros d s Hl Hd.
    - rewrite app_nil_r in Hl. subst d. exists s; split; [ reflexivity | exact Hd ].
    - destruct (Hstep d x r s Hl Hd) as (s1 & E1 & H1). cbn. rewrite E1. cbn [obind].
      apply (IH (d ++ [x]) s1); [ rewrite <- app_assoc; exact Hl | exact H1 ]. }
  apply (G l [] s0 eq_refl H0).
Qed.

Lemma awrite_ok {A} (a : list A) i v : i < length a ->
  exists a', awrite a i v = Ok a' /\ length a' = length a /\ nth_error a' i = Some v /\
             forall j, j <> i -> nth_error a' j = nth_error a j.
Proof.
  intros Hi. unfold awrite. destruct (Nat.ltb_spec i (length a)); [ | lia ].
  eexists; split; [ reflexivity | ].
  assert (Hf : length (firstn i a) = i) by (rewrite firstn_length; lia).
  split; [ rewrite app_length; cbn [length]; rewrite Hf, skipn_length; lia | ]. split.
  - rewrite nth_error_app2 by lia. rewrite Hf, Nat.sub_diag. reflexivity.
  - intros j Hj. destruct (Nat.lt_ge_cases j i) as [Hlt|Hge].
    + rewrite nth_error_app1 by lia. rewrite <- (firstn_skipn i a) at 2.
      rewrite nth_error_app1 by lia. reflexivity.
    + rewrite nth_error_app2 by lia. rewrite Hf.
      destruct (j - i) as [|m] eqn:E; [ lia | ]. cbn [nth_error].
      rewrite <- (firstn_skipn (S i) a) at 2.
      rewrite nth_error_app2 by (rewrite firstn_length; lia).
      rewrite firstn_length. f_equal. lia.
Qed.

Lemma awrite_inv {A} (a a' : list A) i v : awrite a i v = Ok a' ->
  i < length a /\ length a' = length a /\ nth_error a' i = Some v /\
  forall j, j <> i -> nth_error a' j = nth_error a j.
Proof.
  intros H. assert (Hi : i < length a).
  { unfold awrite in H. destruct (Nat.ltb_spec i (length a)); [ assumption | discriminate ]. }
  destruct (awrite_ok a i v Hi) as (b & Hb & H1 & H2 & H3). rewrite Hb in H. injection H as <-. auto.
Qed.

Lemma aread_ok {A} (a : list A) i : i < length a -> exists v, aread a i = Ok v /\ nth_error a i = Some v.
Proof.
  intros H. unfold aread. destruct (nth_error a i) eqn:E; [ eauto | ]. apply nth_error_None in E. lia.
Qed.

Lemma aread_some {A} (a : list A) i v : nth_error a i = Some v -> aread a i = Ok v.
Proof. intros H. unfold aread. rewrite H. reflexivity. Qed.

(* Writing [val x] to [addr x] for every x of a list. *)
Lemma scatter {A X} (addr : X -> nat) (val : X -> A) l arr :
  (forall x, In x l -> addr x < length arr) ->
  (forall x y, In x l -> In y l -> addr x = addr y -> val x = val y) ->
  exists arr', ofold (fun a x => awrite a (addr x) (val x)) l arr = Ok arr' /\
    length arr' = length arr /\
    (forall x, In x l -> nth_error arr' (addr x) = Some (val x)) /\
    (forall i, (forall x, In x l -> addr x <> i) -> nth_error arr' i = nth_error arr i).
Proof.
  intros Hb Hc.
  destruct (ofold_inv (fun d s => length s = length arr /\
     (forall x, In x d -> nth_error s (addr x) = Some (val x)) /\
     (forall i, (forall x, In x d -> addr x <> i) -> nth_error s i = nth_error arr i))
     (fun a x => awrite a (addr x) (val x)) l arr) as (s' & E & H1 & H2 & H3).
  - split; [ reflexivity | ]. split; [ intros x [] | reflexivity ].
  - intros d x r s Hl (H1 & H2 & H3).
    assert (Hx : In x l) by (rewrite Hl; apply in_or_app; right; left; reflexivity).
    destruct (awrite_ok s (addr x) (val x)) as (s' & E & L & W & O); [ rewrite H1; apply Hb, Hx | ].
    exists s'. split; [ exact E | ]. split; [ congruence | ]. split.
    + intros y Hy. apply in_app_iff in Hy. destruct (Nat.eq_dec (addr y) (addr x)) as [He|Hne].
      * rewrite He, W. f_equal. apply Hc; [ exact Hx | | auto ].
        rewrite Hl. apply in_or_app. destruct Hy as [Hy|[->|[]]]; [ left; exact Hy | right; left; reflexivity ].
      * rewrite O by exact Hne. destruct Hy as [Hy|[->|[]]]; [ apply H2, Hy | congruence ].
    + intros i Hi. rewrite O.
      * apply H3. intros y Hy. apply Hi, in_or_app. left; exact Hy.
      * intros ->. apply (Hi x); [ apply in_or_app; right; left; reflexivity | reflexivity ].
  - exists s'. auto.
Qed.

(* Loop nest  for i<n for j<m, in order. *)
Definition nest (n m : nat) : list (nat * nat) :=
  flat_map (fun i => map (fun j => (i, j)) (seq 0 m)) (seq 0 n).

Lemma in_nest n m i j : In (i, j) (nest n m) <-> i < n /\ j < m.
Proof.
  unfold nest. rewrite in_flat_map. split.
  - intros (i' & Hi & H). apply in_map_iff in H. destruct H as (j' & E & Hj). injection E as -> ->.
    apply in_seq in Hi, Hj. lia.
  - intros [Hi Hj]. exists i. split; [ apply in_seq; lia | ]. apply in_map_iff. exists j.
    split; [ reflexivity | apply in_seq; lia ].
Qed.

Lemma NoDup_nest n m : NoDup (nest n m).
Proof.
  apply NoDup_flat_map; [ apply seq_NoDup | | ].
  - intros i _. apply FinFun.Injective_map_NoDup; [ intros a b H; congruence | apply seq_NoDup ].
  - intros x y b _ _ Hx Hy. apply in_map_iff in Hx, Hy.
    destruct Hx as (? & <- & _). destruct Hy as (? & H & _). congruence.
Qed.

(* row-major addressing *)
Lemma rm_lt n m i j : i < n -> j < m -> i * m + j < n * m.
Proof. intros. nia. Qed.
Lemma rm_inj m i j i' j' : j < m -> j' < m -> i * m + j = i' * m + j' -> i = i' /\ j = j'.
Proof.
  intros Hj Hj' H.
  assert (i = i'); [ | subst; lia ].
  destruct (Nat.lt_trichotomy i i') as [?|[?|?]]; [ | assumption | ]; exfalso; nia.
Qed.
Lemma rm_surj n m k : k < n * m -> exists i j, i < n /\ j < m /\ k = i * m + j.
Proof.
  intros H. assert (m <> 0) by (intros ->; lia).
  exists (k / m), (k mod m). split; [ apply Nat.div_lt_upper_bound; lia | ].
  split; [ apply Nat.mod_upper_bound; lia | ]. rewrite (Nat.div_mod k m) at 1 by lia. lia.
Qed.

Lemma list_ext {A} (a b : list A) : length a = length b ->
  (forall i, i < length a -> nth_error a i = nth_error b i) -> a = b.
Proof.
  revert b; induction a as [|x a IH]; intros [|y b] Hl H; cbn in Hl; try lia; [ reflexivity | ].
  pose proof (H 0 ltac:(cbn; lia)) as H0. cbn in H0. injection H0 as ->. f_equal.
  apply IH; [ lia | ]. intros i Hi. apply (H (S i)). cbn; lia.
Qed.

(* reading every cell of an array that may hold uninitialised cells (None) *)
Fixpoint all_init {A} (a : list (option A)) : outcome (list A) :=
  match a with
  | [] => Ok []
  | Some v :: r => do r' <- all_init r; Ok (v :: r')
  | None :: _ => UB
  end.

Lemma all_init_ok {A} (a : list (option A)) :
  (forall i, i < length a -> exists v, nth_error a i = Some (Some v)) ->
  exists b, all_init a = Ok b /\ length b = length a /\
    forall i v, nth_error b i = Some v <-> nth_error a i = Some (Some v).
Proof.
  induction a as [|x a IH]; intros H.
  - exists []. cbn. repeat split; intros; destruct i; discriminate.
  - destruct (H 0 ltac:(cbn; lia)) as [v Hv]. cbn in Hv. injection Hv as ->.
    destruct IH as (b & Hb & Hl & Hn). { intros i Hi. apply (H (S i)). cbn; lia. }
    exists (v :: b). cbn. rewrite Hb. cbn. split; [ reflexivity | ]. split; [ lia | ].
    intros [|i] w; cbn; [ split; congruence | apply Hn ].
Qed.

(* nested loops of writes as one list of writes *)
Definition wr {A} (a : list A) (iv : nat * A) : outcome (list A) := awrite a (fst iv) (snd iv).

Lemma ofold_flat {S X Y} (f : S -> X -> outcome S) (w : S -> Y -> outcome S) (g : X -> list Y) l :
  (forall x s, In x l -> f s x = ofold w (g x) s) -> forall s, ofold f l s = ofold w (flat_map g l) s.
Proof.
  induction l as [|x l IH]; intros H s; [ reflexivity | ]. cbn [ofold flat_map]. rewrite ofold_app.
  rewrite H by (left; reflexivity). destruct (ofold w (g x) s); cbn [obind]; try reflexivity.
  apply IH. intros; apply H; right; assumption.
Qed.
Lemma ofold_map {S X Y} (w : S -> Y -> outcome S) (g : X -> Y) l s :
  ofold w (map g l) s = ofold (fun s x => w s (g x)) l s.
Proof. revert s; induction l as [|x l IH]; intros s; [ reflexivity | ]. cbn. destruct (w s (g x)); cbn; auto. Qed.
Lemma ofold_ext {S X} (f g : S -> X -> outcome S) l : (forall x s, In x l -> f s x = g s x) ->
  forall s, ofold f l s = ofold g l s.
Proof.
  induction l as [|x l IH]; intros H s; [ reflexivity | ]. cbn. rewrite H by (left; reflexivity).
  destruct (g s x); cbn; try reflexivity. apply IH. intros; apply H; right; assumption.
Qed.

Lemma in_combine_seq {A} (l : list A) n k x : In (k, x) (combine (seq n (length l)) l) <-> n <= k /\ nth_error l (k - n) = Some x.
Proof.
  revert n; induction l as [|y l IH]; intros n; cbn [length seq combine].
  - split; [ intros [] | ]. intros [_ H]. destruct (k - n); discriminate.
  - cbn [In]. rewrite IH. split.
    + intros [H|[H1 H2]].
      * injection H as <- <-. split; [ lia | ]. rewrite Nat.sub_diag. reflexivity.
      * split; [ lia | ]. replace (k - n) with (S (k - S n)) by lia. exact H2.
    + intros [H1 H2]. destruct (Nat.eq_dec k n) as [->|Hne].
      * left. rewrite Nat.sub_diag in H2. cbn in H2. congruence.
      * right. split; [ lia | ]. replace (k - n) with (S (k - S n)) in H2 by lia. exact H2.
Qed.

