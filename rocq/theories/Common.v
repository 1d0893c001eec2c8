(* Common vocabulary of all model files. *)
From Coq Require Export ZArith List Bool Lia.
From Coq Require Import FinFun.
From Coq Require Import ZifyBool ZifyNat.
Export ListNotations.
Open Scope Z_scope.

(* How a modelled C++ function can end.
   - [Ok v]  : returns normally
   - [Err]   : calls raise_error (error_management.cpp l.5-20) or exit(-1): the program stops with a message
   - [Exc]   : an uncaught C++ standard-library exception (std::terminate)
   - [UB]    : undefined behaviour (out-of-range access, uninitialised read, division by zero ...) *)
Inductive outcome (A : Type) : Type :=
| Ok  : A -> outcome A
| Err : outcome A
| Exc : outcome A
| UB  : outcome A.
Arguments Ok {A} _.
Arguments Err {A}.
Arguments Exc {A}.
Arguments UB {A}.

Definition obind {A B} (x : outcome A) (f : A -> outcome B) : outcome B :=
  match x with Ok a => f a | Err => Err | Exc => Exc | UB => UB end.
Notation "'do' x <- e1 ; e2" := (obind e1 (fun x => e2))
  (at level 200, x name, e1 at level 100, e2 at level 200).
Notation "'do' ' p <- e1 ; e2" := (obind e1 (fun p => e2))
  (at level 200, p pattern, e1 at level 100, e2 at level 200).

(* Array/vector read [a[i]] with an [int] index: out of range is UB. *)
Definition aget {A} (a : list A) (i : Z) : outcome A :=
  if (i <? 0) then UB else
  match nth_error a (Z.to_nat i) with Some v => Ok v | None => UB end.

(* The C loop  for (int x = lo; x < hi; x += step)  visits this list (step > 0). *)
Definition for_range (lo hi step : Z) : list Z :=
  map (fun k => lo + step * Z.of_nat k) (seq 0 (Z.to_nat ((hi - lo + step - 1) / step))).

Lemma in_for_range lo hi step x :
  0 < step ->
  In x (for_range lo hi step) <-> (lo <= x < hi /\ (step | x - lo)).
Proof.
  intros Hs. unfold for_range. rewrite in_map_iff. split.
  - intros (k & <- & Hk). apply in_seq in Hk.
    assert (Hk' : Z.of_nat k < (hi - lo + step - 1) / step) by lia.
    split; [ | exists (Z.of_nat k); lia ].
    split; [ nia | ].
    assert (step * ((hi - lo + step - 1) / step) <= hi - lo + step - 1)
      by (apply Z.mul_div_le; lia).
    nia.
  - intros ((H1 & H2) & (q & Hq)).
    exists (Z.to_nat q). assert (0 <= q) by nia. split; [ nia | ].
    apply in_seq. split; [ lia | ].
    assert (q < (hi - lo + step - 1) / step); [ | lia ].
    assert (q + 1 <= (hi - lo + step - 1) / step); [ | lia ].
    apply Z.div_le_lower_bound; [ lia | nia ].
Qed.

Lemma in_for_range1 lo hi x : In x (for_range lo hi 1) <-> lo <= x < hi.
Proof.
  rewrite in_for_range by lia. split; [ tauto | ].
  intros H; split; [ exact H | apply Z.divide_1_l ].
Qed.

Lemma NoDup_for_range lo hi step : 0 < step -> NoDup (for_range lo hi step).
Proof.
  intros Hs. unfold for_range.
  apply FinFun.Injective_map_NoDup; [ | apply seq_NoDup ].
  intros a b Hab. nia.
Qed.

Lemma for_range_nil lo hi step : 0 < step -> hi <= lo -> for_range lo hi step = [].
Proof.
  intros Hs H. unfold for_range.
  replace (Z.to_nat ((hi - lo + step - 1) / step)) with 0%nat; [ reflexivity | ].
  assert ((hi - lo + step - 1) / step < 1) by (apply Z.div_lt_upper_bound; lia). lia.
Qed.

(* NoDup for a loop nest written with flat_map. *)
Lemma NoDup_flat_map {A B} (f : A -> list B) (l : list A) :
  NoDup l ->
  (forall x, In x l -> NoDup (f x)) ->
  (forall x y b, In x l -> In y l -> In b (f x) -> In b (f y) -> x = y) ->
  NoDup (flat_map f l).
Proof.
  induction l as [|a l IH]; cbn; intros Hnd Hf Hdis; [ constructor | ].
  inversion Hnd as [|? ? Hnin Hnd']; subst.
  assert (Happ : forall l1 l2 : list B, NoDup l1 -> NoDup l2 ->
            (forall b, In b l1 -> In b l2 -> False) -> NoDup (l1 ++ l2)).
  { intros l1 l2 H1 H2 Hd. induction l1 as [|b l1 IH1]; cbn; [ exact H2 | ].
    inversion H1; subst. constructor.
    - rewrite in_app_iff. intros [?|?]; [ contradiction | ].
      apply (Hd b); [ left; reflexivity | assumption ].
    - apply IH1; [ assumption | ]. intros b' ? ?. apply (Hd b'); [ right | ]; assumption. }
  apply Happ.
  - apply Hf; left; reflexivity.
  - apply IH; [ exact Hnd' | | ].
    + intros x Hx; apply Hf; right; exact Hx.
    + intros x y b Hx Hy; apply Hdis; right; assumption.
  - intros b Hb1 Hb2. apply in_flat_map in Hb2. destruct Hb2 as (y & Hy & Hby).
    assert (a = y) by (apply (Hdis a y b); [ left; reflexivity | right; exact Hy | exact Hb1 | exact Hby ]).
    subst. contradiction.
Qed.
