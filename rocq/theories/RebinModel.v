(* Model of ompy/rebin.pyx. *)
From Verif Require Import PyBase.

(* rebin.pyx:12-36 overlap *)
Definition overlap (in_l in_u out_l out_u : Qc) : Qc :=
  qmax 0 (qmin out_u in_u - qmax out_l in_l).

(* rebin.pyx:81 jmin = max(0, int((a0_out + a1_out*(i-1) - a0_in)/a1_in)) *)
Definition rb_jmin (a0i a1i a0o a1o : Qc) (i : nat) : Z :=
  Z.max 0 (qtrunc ((a0o + a1o * (qnat i - 1) - a0i) / a1i)).
(* rebin.pyx:82 jmax = min(Nin-1, int((a0_out + a1_out*(i+1) - a0_in)/a1_in)) *)
Definition rb_jmax (Nin : nat) (a0i a1i a0o a1o : Qc) (i : nat) : Z :=
  Z.min (Z.of_nat Nin - 1) (qtrunc ((a0o + a1o * (qnat i + 1) - a0i) / a1i)).

(* rebin.pyx:86-90 one contribution  counts[j] * overlap / a1_in.
   Simplification: counts[j] is read with a default; the caller's loop bounds
   keep j within 0..Nin-1 and rebin_1D below requires len(counts) >= Nin. *)
Definition rb_term (counts : list Qc) (a0i a1i a0o a1o : Qc) (i : nat) (j : Z) : Qc :=
  let Eout := a0o + a1o * qnat i in
  let Ein := a0i + a1i * qz j in
  vget counts (Z.to_nat j) * overlap Ein (Ein + a1i) Eout (Eout + a1o) / a1i.

(* rebin.pyx:78-90 the inner loop: for j in range(jmin, jmax+1): out[i] += ... *)
Definition rb_bin (counts : list Qc) (Nin : nat) (a0i a1i a0o a1o : Qc) (i : nat) : Qc :=
  fold_left (fun acc j => acc + rb_term counts a0i a1i a0o a1o i j)
            (zrange (rb_jmin a0i a1i a0o a1o i) (rb_jmax Nin a0i a1i a0o a1o i + 1)) 0.

(* rebin.pyx:42-92 rebin_1D.  mids[1] of a shorter array raises IndexError, as does
   counts[j] beyond the end (modelled by requiring len(counts) >= len(mids_in);
   the real code raises only if such a j is reached).
   C division by a zero bin width (cdivision) is outside the model. *)
Definition rebin_1D (counts mids_in mids_out : list Qc) : result (list Qc) :=
  match mids_in, mids_out with
  | m0 :: m1 :: _, o0 :: o1 :: _ =>
      if (length mids_in <=? length counts)%nat then
        let a1i := m1 - m0 in
        let a1o := o1 - o0 in
        let a0i := m0 - a1i / qz 2 in
        let a0o := o0 - a1o / qz 2 in
        Ok (tab (length mids_out) (rb_bin counts (length mids_in) a0i a1i a0o a1o))
      else Raise IndexError
  | _, _ => Raise IndexError
  end.

(* Run a fallible computation for each element, stopping at the first exception
   (Python for loop body raising). *)
Fixpoint rmapm {A B} (f : A -> result B) (l : list A) : result (list B) :=
  match l with
  | [] => Ok []
  | x :: l' => do y <- f x ;; do ys <- rmapm f l' ;; Ok (y :: ys)
  end.

(* transpose of a rectangular array with nc columns: list of columns *)
Definition transpose (nc : nat) (m : list (list Qc)) : list (list Qc) :=
  tab nc (fun j => col m j).

(* rebin.pyx:98-146 rebin_2D(counts, mids_in, mids_out, axis).
   nc is counts.shape[1] (a list of rows does not carry it when empty).
   axis = 1: each row; axis = 0: each column, reassembled (counts_out[:, i] = ...).
   With zero rows (columns) the loop body is never run and nothing is raised. *)
Definition rebin_2D (nc : nat) (counts : list (list Qc)) (mids_in mids_out : list Qc) (axis : Z)
  : result (list (list Qc)) :=
  if (axis =? 0)%Z then
    do cols <- rmapm (fun j => rebin_1D (col counts j) mids_in mids_out) (seq 0 nc) ;;
    Ok (tab (length mids_out) (fun i => map (fun c => vget c i) cols))
  else if (axis =? 1)%Z then
    rmapm (fun r => rebin_1D r mids_in mids_out) counts
  else Raise ValueError.

(* np.linspace(a, b, num=n): n equidistant points from a to b; n = 1 gives [a]. *)
Definition linspace (a b : Qc) (n : nat) : list Qc :=
  match n with
  | O => []
  | 1%nat => [a]
  | S (S k) => tab n (fun i => a + (b - a) * qnat i / qnat (S k))
  end.
