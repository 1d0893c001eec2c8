(* The two matrices pade_approximant fills, entry by entry. *)
From Coq Require Import Reals.
From Verif Require Import Common ArrayLib SwpModel ResolventModel FaddeevModel FaddeevPadeProofs DetModel DenseModel PadeSpec OutputProofs.
Open Scope nat_scope.

Definition mxP (a : nat -> cdouble) (M : nat) (z : cdouble) : list cdouble :=
  map (fun rc => a (M - M + 1 + fst rc + snd rc)) (nest M (M + 1)) ++
  map (fun c => fold_left (fun acc j => cadd acc (cmul (a (j - (M - c))) (cpow z j))) (seq (M - c) (M + 1 - (M - c))) c0) (seq 0 (M + 1)).
Definition mxQ (a : nat -> cdouble) (M : nat) (z : cdouble) : list cdouble :=
  map (fun rc => a (M - M + 1 + fst rc + snd rc)) (nest M (M + 1)) ++ map (fun c => cpow z (M - c)) (seq 0 (M + 1)).
Lemma pade_val_mx det a M z : pade_val det a M z = cdiv (det (mxP a M z) (M + 1)) (det (mxQ a M z) (M + 1)).
Proof. reflexivity. Qed.

Lemma nest_map {X} (f : nat * nat -> X) n m : map f (nest n m) = flat_map (fun r => flat_map (fun c => [f (r, c)]) (seq 0 m)) (seq 0 n).
Proof.
  assert (Hin : forall r, flat_map (fun c => [f (r, c)]) (seq 0 m) = map (fun c => f (r, c)) (seq 0 m)).
  { intros r. induction (seq 0 m) as [|c l IH]; [ reflexivity | ]. cbn. rewrite IH. reflexivity. }
  unfold nest. induction (seq 0 n) as [|i l IH]; [ reflexivity | ]. cbn [flat_map]. rewrite map_app, IH, Hin, map_map. reflexivity.
Qed.
Lemma nest_len n m : length (nest n m) = n * m.
Proof. unfold nest. rewrite flat_map_concat_map. generalize (seq_length n 0). generalize (seq 0 n). intros l <-. induction l as [|i l IH]; [ reflexivity | ].
  cbn [map concat length]. rewrite app_length, map_length, seq_length, IH. reflexivity. Qed.
Lemma nth_top (f : nat * nat -> cdouble) last n m r c : r < n -> c < m -> nth (r * m + c) (map f (nest n m) ++ last) c0 = f (r, c).
Proof.
  intros Hr Hc. rewrite app_nth1 by (rewrite map_length, nest_len; apply rm_lt; assumption).
  apply nth_error_nth. rewrite nest_map. apply (nth_flat_rows (fun r c => f (r, c))); assumption.
Qed.
Lemma nth_last (f : nat * nat -> cdouble) (g : nat -> cdouble) n m c : c < m -> nth (n * m + c) (map f (nest n m) ++ map g (seq 0 m)) c0 = g c.
Proof.
  intros Hc. rewrite app_nth2 by (rewrite map_length, nest_len; lia). rewrite map_length, nest_len.
  replace (n * m + c - n * m) with c by lia. rewrite (nth_indep _ c0 (g 0)) by (rewrite map_length, seq_length; exact Hc).
  rewrite map_nth, seq_nth by exact Hc. reflexivity.
Qed.
Lemma fold_ctotal (g : nat -> cdouble) st n : fold_left (fun acc j => cadd acc (g j)) (seq st n) c0 = ctotal (fun j => g (st + j)) n.
Proof. induction n as [|n IH]; [ reflexivity | ]. rewrite seq_S, fold_left_app, IH. reflexivity. Qed.

Lemma nth_Q a M z r c : r <= M -> c <= M -> nth (r * (M + 1) + c) (mxQ a M z) c0 = denominator a M z r c.
Proof.
  intros Hr Hc. unfold mxQ, denominator. destruct (Nat.ltb_spec r M) as [H|H].
  - rewrite nth_top by lia. cbn [fst snd]. f_equal. lia.
  - replace r with M by lia. rewrite nth_last by lia. reflexivity.
Qed.
Lemma ctotal_ext f g n : (forall k, k < n -> f k = g k) -> ctotal f n = ctotal g n.
Proof. induction n as [|n IH]; intros H; [ reflexivity | ]. cbn. rewrite IH, H by (intros; try apply H; lia). reflexivity. Qed.
Lemma nth_P a M z r c : r <= M -> c <= M -> nth (r * (M + 1) + c) (mxP a M z) c0 = numerator a M z r c.
Proof.
  intros Hr Hc. unfold mxP, numerator. destruct (Nat.ltb_spec r M) as [H|H].
  - rewrite nth_top by lia. cbn [fst snd]. f_equal. lia.
  - replace r with M by lia. rewrite nth_last by lia.
    rewrite (fold_ctotal (fun j => cmul (a (j - (M - c))) (cpow z j))). replace (M + 1 - (M - c)) with (c + 1) by lia.
    apply ctotal_ext. intros k Hk. f_equal. f_equal. lia.
Qed.
