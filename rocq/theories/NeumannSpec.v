(* What the file of Neumann terms says about element i: its value in the block with number n. *)
From Verif Require Import Common ResolventModel FaddeevModel.
Definition recorded (bl : list (nat * list cdouble)) (n i : nat) : cdouble :=
  match find (fun b => Nat.eqb (fst b) n) bl with Some b => nth i (snd b) c0 | None => c0 end.
