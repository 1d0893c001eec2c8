(* The model's complex numbers (pairs of reals) as a mathcomp field.  Decidable equality and choice are those of the
   standard library's classical axioms. *)
From Coq Require Import Reals Lra ClassicalEpsilon FunctionalExtensionality.
From Verif Require Import ResolventModel FaddeevModel.
From mathcomp Require Import all_ssreflect all_algebra.
Set Implicit Arguments. Unset Strict Implicit. Unset Printing Implicit Defensive.

Definition cx := cdouble.
Lemma cx_ext (x y : cx) : fst x = fst y -> snd x = snd y -> x = y.
Proof. by case: x => a b; case: y => c d /= -> ->. Qed.
Definition cx_eqb (x y : cx) : bool := if excluded_middle_informative (x = y) then true else false.
Lemma cx_eqP : Equality.axiom cx_eqb.
Proof. by move=> x y; rewrite /cx_eqb; case: excluded_middle_informative => h; constructor. Qed.
Canonical cx_eqType := EqType cx (EqMixin cx_eqP).

Definition cx_find (P : pred cx) (n : nat) : option cx :=
  match excluded_middle_informative (exists x, P x) with
  | left ex => Some (proj1_sig (constructive_indefinite_description _ ex))
  | right _ => None
  end.
Lemma cx_find_ok P n x : cx_find P n = Some x -> P x.
Proof. rewrite /cx_find; case: excluded_middle_informative => // ex [<-]; exact: (proj2_sig (constructive_indefinite_description _ ex)). Qed.
Lemma cx_find_ex (P : pred cx) : (exists x, P x) -> exists n, cx_find P n.
Proof. by move=> ex; exists 0%N; rewrite /cx_find; case: excluded_middle_informative. Qed.
Lemma cx_find_ext (P Q : pred cx) : P =1 Q -> cx_find P =1 cx_find Q.
Proof. by move=> h n; have -> : P = Q by apply: functional_extensionality. Qed.
Canonical cx_choiceType := ChoiceType cx (Choice.Mixin cx_find_ok cx_find_ex cx_find_ext).

Definition cx_0 : cx := c0.
Definition cx_1 : cx := c1.
Definition cx_add (x y : cx) : cx := cadd x y.
Definition cx_opp (x : cx) : cx := copp x.
Definition cx_mul (x y : cx) : cx := cmul x y.
Definition cx_inv (x : cx) : cx := cinv x.

Ltac cxr := hnf; intros; repeat match goal with x : cx |- _ => destruct x end; apply cx_ext; cbn; ring.
Lemma cx_addA : associative cx_add. Proof. by cxr. Qed.
Lemma cx_addC : commutative cx_add. Proof. by cxr. Qed.
Lemma cx_add0 : left_id cx_0 cx_add. Proof. by cxr. Qed.
Lemma cx_addN : left_inverse cx_0 cx_opp cx_add. Proof. by cxr. Qed.
Canonical cx_zmodType := ZmodType cx (ZmodMixin cx_addA cx_addC cx_add0 cx_addN).
Lemma cx_mulA : associative cx_mul. Proof. by cxr. Qed.
Lemma cx_mulC : commutative cx_mul. Proof. by cxr. Qed.
Lemma cx_mul1 : left_id cx_1 cx_mul. Proof. by cxr. Qed.
Lemma cx_mulD : left_distributive cx_mul cx_add. Proof. by cxr. Qed.
Lemma cx_nz : cx_1 != cx_0.
Proof. by apply/eqP => /(congr1 fst) /= h; have := R1_neq_R0. Qed.
Canonical cx_ringType := RingType cx (ComRingMixin cx_mulA cx_mulC cx_mul1 cx_mulD cx_nz).
Canonical cx_comRingType := ComRingType cx cx_mulC.
Lemma cx_mulV (x : cx) : x != cx_0 -> cx_mul (cx_inv x) x = cx_1.
Proof.
case: x => a b /eqP h; have hn : (Rplus (Rmult a a) (Rmult b b) <> R0).
  move=> e; apply: h. 
  have ea : a = R0 by nra. have eb : b = R0 by nra. by rewrite ea eb.
by apply: cx_ext; cbn; field.
Qed.
Lemma cx_inv0 : cx_inv cx_0 = cx_0.
Proof. by apply: cx_ext; cbn; rewrite /Rdiv; ring. Qed.
Definition cx_unitMixin := FieldUnitMixin cx_mulV cx_inv0.
Canonical cx_unitRingType := UnitRingType cx cx_unitMixin.
Canonical cx_comUnitRingType := [comUnitRingType of cx].
Definition cx_fieldMixin : GRing.Field.mixin_of cx_unitRingType := fun x hx => FieldMixin cx_mulV cx_inv0 hx.
Canonical cx_idomainType := IdomainType cx (FieldIdomainMixin cx_fieldMixin).
Canonical cx_fieldType := FieldType cx cx_fieldMixin.

Import GRing.Theory.
Local Open Scope ring_scope.
Lemma cx_addE (x y : cx) : x + y = cadd x y. Proof. by []. Qed.
Lemma cx_mulE (x y : cx) : x * y = cmul x y. Proof. by []. Qed.
Lemma cx_divE (x y : cx) : x / y = cdiv x y. Proof. by []. Qed.
Lemma cx_powE (x : cx) n : x ^+ n = cpow x n.
Proof. by elim: n => [|n IH] //; rewrite exprS IH. Qed.
