(* Model of the level density from a file of discrete levels: filehandling.load_discrete
   (ompy/filehandling.py:375-407), load_levels_discrete and load_levels_smooth
   (ompy/normalizer_nld.py:672-704), over the real numbers. *)
From Coq Require Import Reals ZArith List.
From Verif Require Import PyBase TransformModel.
Import ListNotations.
Local Open Scope R_scope.

(* What np.loadtxt returns: a file with a single number gives an array without length; tables
   with several columns are not modelled. *)
Inductive loaded := Single (e : R) | Column (l : list R).
Definition total (l : list R) : R := fold_right Rplus 0 l.

(* np.histogram with given edges: numbers of levels below the edges, at or below the last
   edge, and their differences *)
Definition below (l : list R) (e : R) : nat := length (filter (fun x => if Rlt_dec x e then true else false) l).
Definition upto (l : list R) (e : R) : nat := length (filter (fun x => if Rle_dec x e then true else false) l).
Fixpoint histogram (l : list R) (edges : list R) : list R :=
  match edges with
  | a :: (b :: rest) as tl =>
      (INR (match rest with [] => upto l b | _ => below l b end) - INR (below l a)) :: histogram l tl
  | _ => []
  end.
(* np.histogram raises ValueError for edges that decrease *)
Fixpoint increasing (edges : list R) : bool :=
  match edges with
  | a :: (b :: _) as tl => if Rle_dec a b then increasing tl else false
  | _ => true
  end.
(* filehandling.py:395-397; energy[0] and energy[1] *)
Definition bin_edges (energy : list R) (binsize : R) : list R :=
  map (fun e => e - binsize / 2) (energy ++ [last energy 0 + binsize]).

(* scipy.ndimage.gaussian_filter1d with its defaults truncate=4 and mode='reflect':
   radius int(4 sigma + 0.5), weights exp(-k^2/(2 sigma^2)) divided by their sum *)
Definition radius (sigma : R) : nat := Z.to_nat (Int_part (4 * sigma + / 2)).
Definition offsets (r : nat) : list Z := map (fun k => (Z.of_nat k - Z.of_nat r)%Z) (seq 0 (2 * r + 1)).
Definition bell (sigma : R) (k : Z) : R := exp (- / 2 / sigma ^ 2 * IZR k ^ 2).
Definition weight (sigma : R) (r : nat) (k : Z) : R := bell sigma k / total (map (bell sigma) (offsets r)).
(* the position that replaces position i outside the array: d c b a | a b c d | d c b a *)
Definition reflect (n : nat) (i : Z) : nat :=
  let m := (i mod (2 * Z.of_nat n))%Z in
  if (m <? Z.of_nat n)%Z then Z.to_nat m else Z.to_nat (2 * Z.of_nat n - 1 - m).
(* correlate1d with a kernel w of offsets -r..r *)
Definition correlate (w : Z -> R) (r : nat) (x : list R) : list R :=
  map (fun i => total (map (fun k => w k * nth (reflect (length x) (Z.of_nat i + k)) x 0) (offsets r))) (seq 0 (length x)).
Definition gaussian_filter1d (sigma : R) (x : list R) : list R :=
  correlate (weight sigma (radius sigma)) (radius sigma) x.

(* filehandling.py:390-407.  binsize = 0 (equal energies; nan values) is reported as
   ValueError. *)
Definition load_discrete (file : loaded) (energy : list R) (resolution : R) : result (list R * option (list R)) :=
  match file with
  | Single _ => Raise TypeError   (* len() of an array without dimensions *)
  | Column keV =>
      let levels := map (fun e => e / 1000) keV in
      if (Nat.ltb 1 (length levels) && (if Rlt_dec (total levels / INR (length levels)) 20 then false else true))%bool
      then Raise AssertionError
      else match energy with
           | e0 :: e1 :: _ =>
               let binsize := e1 - e0 in
               let edges := bin_edges energy binsize in
               if increasing edges then
                 if Req_EM_T binsize 0 then Raise ValueError
                 else
                   let hist := map (fun c => c / binsize) (histogram levels edges) in
                   Ok (hist, if Rlt_dec 0 resolution
                             then Some (gaussian_filter1d (resolution / (23548 / 10000) / binsize) hist)
                             else None)
               else Raise ValueError
           | _ => Raise IndexError
           end
  end.
(* normalizer_nld.py:672-684 *)
Definition load_levels_discrete (file : loaded) (energy : list R) : result rvec :=
  match load_discrete file energy (/ 10) with
  | Ok (h, _) => Ok (mkRV h energy None)
  | Raise e => Raise e
  end.
(* normalizer_nld.py:687-704 *)
Definition load_levels_smooth (file : loaded) (energy : list R) (resolution : R) : result rvec :=
  match load_discrete file energy resolution with
  | Ok (h, Some s) => Ok (mkRV s energy None)
  | Ok (h, None) => Ok (mkRV h energy None)
  | Raise e => Raise e
  end.
