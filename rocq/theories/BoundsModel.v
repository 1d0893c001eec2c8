(* The file alpha_pq_boundaries.txt left behind when breakup channels are looked for (C100).
   run_organizer.cpp l.144, 153-155, 160, 206-222, 323-332, 338; disk_io_routines.cpp store_array l.708-731.
   The search for cells is that of OnShellModel (breakup_energy); the same loops fill the array of boundaries, here in a pass
   of its own.  Simplified: the file can be opened; the int that holds 4 times the number of a cell does not overflow. *)
From Coq Require Import Reals String Ascii.
From Verif Require Import Common ArrayLib PWModel SwpModel ResolventModel OnShellModel ParamsModel TextModel NeumannModel.
Open Scope nat_scope.

Section Bounds.
Variables (tensor iso : bool) (Np Nq : nat) (e_unco e_coup q : list R) (states : list pw) (Eb : R).
(* l.166-222: into alphapq_boundaries; kinematics_stored is false all along (it is set behind the loops, l.325) *)
Definition bounds_array (arr : list R) : outcome (list R) :=
  ofold (fun arr sa =>
      do '(coup, off) <- e_block tensor iso (zn Np) (snd sa);
      let e := if coup then e_coup else e_unco in
      ofold (fun arr iq =>
          do ql <- aread q iq; do qu <- aread q (iq + 1);
          ofold (fun arr ip =>
              do el <- zread e (off + zn ip); do eu <- zread e (off + zn ip + 1);
              let idx := fst sa * Np * Nq + iq * Np + ip in
              do arr <- awrite arr (4 * idx + 0) (E_free ql);
              do arr <- awrite arr (4 * idx + 1) (E_free qu);
              do arr <- awrite arr (4 * idx + 2) el;
              awrite arr (4 * idx + 3) eu)
            (seq 0 Np) arr)
        (seq 0 Nq) arr)
    (combine (seq 0 (length states)) states) arr.
Variable dbl : R -> double.                  (* the double in memory *)
(* store_array l.708-731 *)
Definition array_text (a : list R) : string := unlines (map (fun x => fixed_pos 8 (dbl x)) a ++ [""%string]).
(* l.154-334: the texts written, in order, and how the search ended.  The array is allocated once (l.153). *)
Fixpoint bounds_run (arr : list R) (E_coms : list R) : list string * outcome unit :=
  match E_coms with
  | [] => ([], Ok tt)
  | E :: Es =>
      if Rltb (E + Eb) 0 then bounds_run arr Es else                     (* l.157-160 *)
      match (do arr <- bounds_array arr; do new <- breakup_energy tensor iso Np Nq e_unco e_coup q states E; Ok (arr, new)) with
      | Ok (arr, new) =>
          match new with
          | [] => ([array_text arr], Err)                                (* l.323-332 *)
          | _ => let r := bounds_run arr Es in (array_text arr :: fst r, snd r)
          end
      | Err => ([], Err) | Exc => ([], Exc) | UB => ([], UB)
      end
  end.
End Bounds.
(* l.324: the name is fixed, the file is in the directory the program is started in, and is opened anew each time *)
Definition bounds_file : string := "alpha_pq_boundaries.txt"%string.
Definition put_bounds (texts : list string) (fs : file_system) : file_system :=
  fold_left (fun fs t => put_text true bounds_file t fs) texts fs.
