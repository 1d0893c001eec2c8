(* What it means that a parallel region computes a result whatever the threads do (C80, C81). *)
From Coq Require Import String Permutation.
From Verif Require Import Common ArrayLib PioModel OmpModel.
Open Scope nat_scope.
Open Scope list_scope.

Section Spec.
Context {L V A : Type}.
Variable leqb : L -> L -> bool.
(* every schedule: no thread fails (leaves an array, stops the program), the threads can always go on to the end of the
   region, and at the end the shared memory satisfies [result] *)
Definition every_execution (threads : list (acc L V A)) (start : memory L V) (result : memory L V -> Prop) : Prop :=
  forall sched, let st := parallel leqb threads start sched in
    ~ failed st /\ (finished st -> result (shared st)) /\ exists more, finished (parallel leqb threads start (sched ++ more)).
(* no two threads touch one location, one of them writing it, in any execution *)
Definition race_free (threads : list (acc L V A)) (start : memory L V) : Prop :=
  forall sched l, ~ race_on (elog (parallel leqb threads start sched)) l.
(* every complete execution has a race on l *)
Definition always_races (threads : list (acc L V A)) (start : memory L V) (l : L) : Prop :=
  forall sched, finished (parallel leqb threads start sched) -> race_on (elog (parallel leqb threads start sched)) l.
End Spec.
(* omp for: one list of iterations for each thread; together each iteration of the loop once *)
Definition distributes {X} (assign : list (list X)) (iterations : list X) : Prop := Permutation (concat assign) iterations.

(* the memory at the end of the element loop holds the buffers, counts and files of M *)
Definition holds {V} (T : nat) (m : memory eloc (evalue V)) (M : mem V) : Prop :=
  length (m_th V M) = T /\
  (forall t th, nth_error (m_th V M) t = Some th ->
     m (Dim t) = Some (VNat (t_dim V th)) /\ m (Tfc t) = Some (VNat (t_tfc V th)) /\
     forall k, m (Buf t k) = option_map VElem (nth_error (t_buf V th) k)) /\
  (forall n, m (File n) = Some (VFile (m_fs V M n))).
