(* Model of ompy/unfolder.py (class Unfolder). *)
From Verif Require Import PyBase Axis RebinModel MatrixModel VectorModel ArithModel SmoothModel.

(* numpy arithmetic on float64 with non-finite values (scores only) *)
Definition xmul (x y : xnum) : xnum :=
  match x, y with
  | NaN, _ | _, NaN => NaN
  | Fin a, Fin b => Fin (a * b)
  | Fin a, i | i, Fin a => if qeqb a 0 then NaN else if qltb a 0 then xneg i else i
  | PInf, i | i, PInf => i
  | NInf, NInf => PInf
  end.
Definition xadd (x y : xnum) : xnum :=
  match x, y with
  | NaN, _ | _, NaN => NaN
  | Fin a, Fin b => Fin (a + b)
  | Fin _, i | i, Fin _ => i
  | PInf, PInf => PInf
  | NInf, NInf => NInf
  | _, _ => NaN
  end.
(* x < y; false if one is nan *)
Definition xltb (x y : xnum) : bool :=
  match x, y with
  | NaN, _ | _, NaN => false
  | Fin a, Fin b => qltb a b
  | Fin _, PInf | NInf, Fin _ | NInf, PInf => true
  | _, _ => false
  end.
(* np.argmin: the first nan if there is one, otherwise the first minimum; ValueError if
   empty *)
Fixpoint argminx_from (best : xnum) (ibest i : nat) (l : list xnum) : nat :=
  match best with
  | NaN => ibest
  | _ => match l with
         | [] => ibest
         | x :: t => match x with
                     | NaN => i
                     | _ => if xltb x best then argminx_from x i (S i) t else argminx_from best ibest (S i) t
                     end
         end
  end.
Definition argminx (l : list xnum) : result nat :=
  match l with [] => Raise ValueError | x :: t => Ok (argminx_from x 0 1 t) end.

(* elementwise operation on two arrays of the same shape *)
Definition azip (f : Qc -> Qc -> Qc) (a b : arr2) : arr2 := mkArr (a_nc a) (zip2 f (a_rows a) (a_rows b)).

(* unfolder.py:189-213 step; `@` is matprod *)
Definition step (r R : arr2) (u f : arr2) (k : nat) : arr2 * arr2 :=
  let u' := if (0 <? k)%nat then azip Qcplus u (azip Qcminus r f) else u in
  (u', matprod u' R).
(* unfolder.py:150-155 the iterations: (unfolded, folded) for each *)
Fixpoint iterates (r R : arr2) (n k : nat) (u f : arr2) : list (arr2 * arr2) :=
  match n with
  | O => []
  | S n' => let p := step r R u f k in p :: iterates r R n' (S k) (fst p) (snd p)
  end.
Definition unfold_cube (r R : arr2) (num_iter : nat) : list (arr2 * arr2) :=
  iterates r R num_iter 0 r (amap (fun _ => 0) r).

(* unfolder.py:215-222 chi_square: one value per row *)
Definition chi_square (r folded : arr2) : list Qc :=
  map2 (fun rr fr => qsum (map2 (fun x f => div0 ((f - x) * (f - x)) (if qltb 0 x then x else 0)) rr fr))
       (a_rows r) (a_rows folded).

(* unfolder.py: response_tab, columns of a pandas.DataFrame *)
Record resp_tab := mkTab {
  t_E : list Qc; t_fwhm : list Qc; t_eff : list Qc;
  t_pf : list Qc; t_ps : list Qc; t_pd : list Qc; t_pa : list Qc }.
(* FWHM_tweak_multiplier: values for the keys fe, se, de, 511; a key may be missing *)
Record tweaks := mkTw { tw_fe : option Qc; tw_se : option Qc; tw_de : option Qc; tw_511 : option Qc }.
(* the object; attributes used by apply *)
Record unfolder := mkU {
  u_R : option matrix; u_num_iter : nat; u_min_iter : nat; u_weight : Qc;
  u_compton : bool; u_tab : option resp_tab; u_tweak : option tweaks;
  u_iscores : option (list nat) }.

(* unfolder.py:93-120 update_values; the state of raw only causes a warning *)
Definition negative_entry (a : arr2) : bool := existsb (existsb (fun x => qltb x 0)) (a_rows a).
Definition update_values (un : unfolder) (raw : matrix) : result matrix :=
  match u_R un with
  | None => Raise AssertionError
  | Some R =>
      if negb (Nat.eqb (a_nr (values R)) (a_nc (values R))) then Raise AssertionError
      else if negb (Nat.eqb (length (Eg raw)) (length (Eg R))) then Raise ValueError
      else if negb (allclose (Eg raw) (Eg R)) then Raise ValueError
      else if negative_entry (values raw) || negative_entry (values R) then Raise ValueError
      else Ok R
  end.

Section Oracles.
(* scipy gaussian_filter1d of one row with sigma = 50/a1 *)
Variable filter1d : Qc -> list Qc -> list Qc.
Variable gaussian : Qc -> Qc -> Qc -> Qc.

(* unfolder.py:224-247 fluctuations, one value per row; raw.Eg[1] raises IndexError *)
Definition fluct_row (a1 : Qc) (row : list Qc) : Qc :=
  qsum (map qabs (map2 (fun s c => div0 (s - c) s) (filter1d (qz 50 / a1) row) row)).
Definition fluctuations (eg : list Qc) (a : arr2) : result (list Qc) :=
  match eg with
  | x :: y :: _ => Ok (map (fluct_row (y - x)) (a_rows a))
  | _ => Raise IndexError
  end.
(* unfolder.py:144-145, 155, 268-269 the score of one iteration for each row:
   (1-w) chi2 + w * (1/fluct(raw)) * fluct(unfolded) *)
Definition score_row (w chi f0 f : Qc) : xnum :=
  xadd (xmul (Fin (1 - w)) (Fin chi)) (xmul (Fin w) (xmul (xdiv (Fin 1) (Fin f0)) (Fin f))).
Definition scores (w : Qc) (r : arr2) (f0 : list Qc) (a1 : Qc) (p : arr2 * arr2) : list xnum :=
  map2 (fun c ff => score_row w c (fst ff) (snd ff)) (chi_square r (snd p))
       (combine f0 (map (fluct_row a1) (a_rows (fst p)))).
(* unfolder.py:264-276 score: caps minimum_iterations (a change of the object) and selects
   the iteration of each row *)
Definition cap_min (un : unfolder) : nat := Nat.min (u_min_iter un) (u_num_iter un).
Definition select_iteration (mi : nat) (sc : list (list xnum)) (i : nat) : result nat :=
  do b <- argminx (map (fun l => nth i l NaN) sc) ;;
  Ok (if (b <? mi)%nat then mi else b).
(* unfolder.py:172-174 picking the rows; IndexError if the index exceeds the cube *)
Definition pick_row (cube : list (arr2 * arr2)) (k i : nat) : result (list Qc) :=
  if (k <? length cube)%nat
  then Ok (nth i (a_rows (fst (nth k cube (mkArr 0 [], mkArr 0 [])))) [])
  else Raise IndexError.

(* unfolder.py:301-402 compton_subtraction.  One row; smoothing and shifting act on
   rows.  div0 turns nan into 0, so a row that has become nan ends as zeros. *)
Definition orow (a b : option (list Qc)) (f : Qc -> Qc -> Qc) : option (list Qc) :=
  match a, b with Some x, Some y => Some (map2 f x y) | _, _ => None end.
Definition oshift (a : option (list Qc)) (E : list Qc) (s : Qc) : result (option (list Qc)) :=
  match a with Some x => do y <- shift x E s ;; Ok (Some y) | None => Ok None end.
Definition compton_row (t : resp_tab) (fe se de f511 : Qc) (r u0 : list Qc) : result (list Qc) :=
  let Eg := t_E t in
  let sm l f w := gauss_smoothing gaussian l Eg (map (fun x => f * x * w) (t_fwhm t)) (qz 3) in
  do uf <- sm (map2 Qcmult (t_pf t) u0) (qn 1 2) fe ;;
  do us0 <- sm (map2 Qcmult (t_ps t) u0) (qn 1 2) se ;;
  do us <- oshift us0 Eg (qz (-511)) ;;
  do ud0 <- sm (map2 Qcmult (t_pd t) u0) (qn 1 2) de ;;
  do ud <- oshift ud0 Eg (qz (-1024)) ;;
  do i511 <- i_from_E (qz 511) Eg ;;
  let ua0 := tab (length u0) (fun j => if Nat.eqb j i511 then qsum (map2 Qcmult (t_pa t) u0) else 0) in
  do ua <- sm ua0 1 f511 ;;
  let w := orow (orow us ud Qcplus) ua Qcplus in
  let v := orow uf w Qcplus in
  match orow (Some r) v Qcminus with
  | None => Ok (map (fun _ => 0) u0)
  | Some c0 =>
      do c <- sm c0 1 1 ;;
      match orow (orow (Some r) c Qcminus) w Qcminus with
      | None => Ok (map (fun _ => 0) u0)
      | Some d => Ok (map2 div0 (map2 div0 d (t_pf t)) (t_eff t))
      end
  end.
(* unfolder.py:333-358 the table and the tweaks.  `tab.E == R.Eg` of different lengths
   raises ValueError. *)
Definition tweak_vals (o : option tweaks) : result (Qc * Qc * Qc * Qc) :=
  match o with
  | None => Ok (1, 1, 1, 1)
  | Some t => match tw_fe t, tw_se t, tw_de t, tw_511 t with
              | Some a, Some b, Some c, Some d => Ok (a, b, c, d)
              | _, _, _, _ => Raise ValueError
              end
  end.
Definition compton_subtraction (un : unfolder) (R : matrix) (r : arr2) (u : list (list Qc))
  : result (list (list Qc)) :=
  match u_tab un with
  | None => Raise ValueError
  | Some t =>
      if negb (Nat.eqb (length (t_E t)) (length (Eg R))) then Raise ValueError
      else if negb (leqb (t_E t) (Eg R)) then Raise AssertionError
      else do (fe, se, de, f511) <- tweak_vals (u_tweak un) ;;
           rmapm (fun p => compton_row t fe se de f511 (fst p) (snd p)) (combine (a_rows r) u)
  end.

(* unfolder.py:122-187 apply(raw, response).  Returns the object afterwards and the
   outcome.  `@` raises ValueError if the inner dimensions differ. *)
Definition set_R (un : unfolder) (R : option matrix) : unfolder :=
  match R with
  | None => un
  | Some _ => mkU R (u_num_iter un) (u_min_iter un) (u_weight un) (u_compton un) (u_tab un) (u_tweak un) (u_iscores un)
  end.
Definition set_min (un : unfolder) (sc : option (list nat)) : unfolder :=
  mkU (u_R un) (u_num_iter un) (cap_min un) (u_weight un) (u_compton un) (u_tab un) (u_tweak un)
      (match sc with Some _ => sc | None => u_iscores un end).
Definition apply (un0 : unfolder) (raw : matrix) (response : option matrix) : unfolder * result matrix :=
  let un := set_R un0 response in
  match update_values un raw with
  | Raise e => (un, Raise e)
  | Ok R =>
      let r := values raw in
      match fluctuations (Eg raw) r with
      | Raise e => (un, Raise e)
      | Ok f0 =>
          if (0 <? u_num_iter un)%nat && negb (Nat.eqb (a_nc r) (a_nr (values R))) then (un, Raise ValueError)
          else
          let cube := unfold_cube r (values R) (u_num_iter un) in
          let a1 := nth 1 (Eg raw) 0 - nth 0 (Eg raw) 0 in
          let sc := map (scores (u_weight un) r f0 a1) cube in
          let un1 := set_min un None in
          if (u_num_iter un =? 0)%nat then (un1, Raise ValueError) (* argmin of nothing *)
          else
          match rmapm (select_iteration (cap_min un) sc) (seq 0 (a_nr r)) with
          | Raise e => (un1, Raise e)
          | Ok isc =>
              let un2 := set_min un (Some isc) in
              (un2,
               do rows <- rmapm (fun i => pick_row cube (nth i isc 0%nat) i) (seq 0 (a_nr r)) ;;
               do rows' <- (if u_compton un then compton_subtraction un R r rows else Ok rows) ;;
               do m <- mk_matrix (mkArr (a_nc r) rows') (Some (Eg raw)) (Some (Ex raw)) None (SState UNFOLDED) ;;
               Ok (remove_negative m))
          end
      end
  end.

(* unfolder.py:278-290 fold *)
Definition fold (un : unfolder) (m : matrix) : result matrix :=
  match u_R un with
  | None => Raise AssertionError
  | Some R => if Nat.eqb (a_nc (values m)) (a_nr (values R))
              then Ok (with_values m (matprod (values m) (values R))) else Raise ValueError
  end.
End Oracles.
