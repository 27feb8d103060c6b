(* C31 save/load round trip, C32 MaMa round trip, C33 saving touches only its own file. *)
From Coq Require Import String Ascii.
From Verif Require Import PyBase Axis RebinModel MatrixModel VectorModel FileModel FileSpec FileProofs.
Local Open Scope list_scope.
Local Notation length := List.length (only parsing).

Example suffix_examples : (suffix (pth "a/b.c/m.tar"), suffix (pth "a.b/m"), suffix (pth ".tar"), suffix (pth "m."), suffix (pth "x.y.npy"))
  = (pth ".tar", [], [], [], pth ".npy").
Proof. vm_compute. reflexivity. Qed.
Example path_examples : (tmp_path (pth "d/m.tar") 12, tar_path (pth "d/m.dat"), tmp_path (pth "d/m.dat") 0, tmp_path (pth "d/m") 0, filetype (pth "x") (Some (pth "MaMa")))
  = (pth "d/m12.npy", pth "d/m.dat.tar", pth "d/m0.npy", pth "0.npy", TMama).
Proof. vm_compute. reflexivity. Qed.

Lemma np_path_npy q : np_path (q ++ pth ".npy") = q ++ pth ".npy".
Proof. unfold np_path. rewrite app_length. change (length (pth ".npy")) with 4%nat. rewrite Nat.add_sub, skipn_app, skipn_all, Nat.sub_diag. reflexivity. Qed.

(* ---- C31 ------------------------------------------------------------------------- *)
(* vectors that save successfully come back with values, energies and std, whatever the
   loading vector w held (its units stay) *)
Theorem vector_round_trip : forall cwd rd6 rd8 d v w p ft u ops, vector_ok v ->
  save_vector cwd rd6 rd8 v p ft u = (ops, Ok tt) ->
  (filetype p ft = TNumpy /\ (exists q, p = q ++ pth ".npy")) \/ (filetype p ft = TTxt /\ (2 <= length (v_E v))%nat) \/
  filetype p ft = TCsv \/ (filetype p ft = TTar /\ (v_std v = None -> v_std w = None)) ->
  exists E, energies_in u v E /\ snd (load_vector cwd (exec ops d) w p ft) = (mkV (v_values v) E (v_std v) (v_units w), Ok tt).
Proof.
  intros cwd rd6 rd8 d v w p ft u ops V S T. unfold save_vector in S. destruct (convert u v) as [x|] eqn:C; [|discriminate].
  destruct (convert_lemma _ _ _ C) as (E1 & E2 & EN & L). pose proof (convert_ok _ _ _ V C) as X. exists (v_E x). split; [exact EN|].
  assert (G : v_verify (mkV (v_values v) (v_E x) (v_std v) (v_units w)) = Ok tt).
  { apply verify_ok. destruct X as [X1 X2]. rewrite E1 in X1, X2. rewrite E2 in X2. now split. }
  unfold load_vector, read_vector. rewrite <- E1, <- E2 in *.
  destruct T as [[F [q ->]]|[[F N]|[F|[F N]]]]; rewrite F in *.
  - destruct (columns _ _ _) as [a|] eqn:K; [|discriminate]. cbn in S. injection S as <-. unfold np_save. rewrite np_path_npy. unfold np_load. rewrite write_reads.
    cbn [rbind]. rewrite (proj1 (columns_uncolumns _ _ _ _ K)). cbn. now rewrite G.
  - destruct (columns _ _ _) as [a|] eqn:K; [|discriminate]. cbn in S. injection S as <-. unfold loadtxt. rewrite write_reads.
    destruct (columns_uncolumns _ _ _ _ K) as (U & R & CC). rewrite squeeze_2d by lia. cbn [rbind]. rewrite U. cbn. now rewrite G.
  - destruct (columns _ _ _) as [a|] eqn:K; [|discriminate]. cbn in S. injection S as <-. rewrite write_reads. cbn. now rewrite G.
  - injection S as <-. unfold load_tar. rewrite save_tar_reads. rewrite tar_content_snd. destruct (v_std x) as [s|] eqn:SX; cbn [snd].
    + now rewrite G.
    + rewrite N by reflexivity. now rewrite G.
Qed.
Print Assumptions vector_round_trip.
(* every consistent vector with known units can be saved in these formats *)
Theorem vector_saves : forall cwd rd6 rd8 v p ft u, vector_ok v -> u <> UOther -> (u = USame \/ v_units v = KeV \/ v_units v = MeV) ->
  In (filetype p ft) [TNumpy; TTxt; TCsv; TTar] -> exists ops, save_vector cwd rd6 rd8 v p ft u = (ops, Ok tt).
Proof.
  intros cwd rd6 rd8 v p ft u V U K F. assert (C : exists x, convert u v = Ok x).
  { unfold convert, to_keV, to_MeV. destruct u; try contradiction; destruct (v_units v) as [| |s]; try (eexists; reflexivity); destruct K as [K|[K|K]]; discriminate. }
  destruct C as [x C]. unfold save_vector. rewrite C. destruct (convert_ok _ _ _ V C) as [X1 X2]. destruct (columns_ok _ _ _ X1 X2) as [a A]. rewrite A.
  destruct F as [<-|[<-|[<-|[<-|[]]]]]; cbn; eauto.
Qed.
Print Assumptions vector_saves.

Definition chosen (m : matrix) (which : which_t) (a : arr2) : Prop :=
  (which = WValues /\ a = values m) \/ (which = WStd /\ std m = Some a).
(* matrices: the chosen array and both axes come back; std and state of the loading matrix
   stay what they were, and a std of another shape makes load fail *)
Theorem matrix_round_trip : forall cwd corner rd6 rd8 d m which a p ft, matrix_ok m -> chosen m which a -> array_ok a -> shape a = shape (values m) ->
  (filetype p ft = TNumpy /\ (exists q, p = q ++ pth ".npy")) \/ (filetype p ft = TTxt /\ (1 <= a_nr a)%nat /\ (1 <= a_nc a)%nat) \/ filetype p ft = TTar ->
  exists ops, save_matrix cwd corner rd6 rd8 m p ft which = (ops, Ok tt) /\ forall w, exists r,
    snd (load_matrix cwd (exec ops d) w p ft) = (mkM a (Eg m) (Ex m) (std w) (state w), r) /\
    (r = Ok tt <-> forall s, std w = Some s -> shape s = shape a).
Proof.
  intros cwd corner rd6 rd8 d m which a p ft (M1 & M2 & M3) CH A SH T. unfold shape in SH. injection SH as SR SC.
  assert (W : match which with WValues => Ok (values m) | WStd => match std m with None => Raise RuntimeError | Some s => Ok s end | WOther => Raise NotImplementedErr end = Ok a).
  { destruct CH as [[-> ->]|[-> ->]]; reflexivity. }
  assert (VR : forall w, exists r, verify_integrity (mkM a (Eg m) (Ex m) (std w) (state w)) = r /\ (r = Ok tt <-> forall s, std w = Some s -> shape s = shape a)).
  { intros w. eexists. split; [reflexivity|]. unfold verify_integrity. cbn [values Ex Eg std]. rewrite SR, SC, M2, M3, !Nat.eqb_refl. cbn [negb].
    destruct (std w) as [s|]; [|split; [congruence|reflexivity]]. unfold pair_eqb, shape. cbn [fst snd].
    destruct (Nat.eqb_spec (a_nr a) (a_nr s)) as [E1|E1]; [destruct (Nat.eqb_spec (a_nc a) (a_nc s)) as [E2|E2]|]; cbn [andb].
    - split; [|reflexivity]. intros _ s' X. injection X as <-. congruence.
    - split; [discriminate|]. intros H. specialize (H s eq_refl). congruence.
    - split; [discriminate|]. intros H. specialize (H s eq_refl). congruence. }
  assert (LG : length (Eg m) = a_nc a) by congruence. assert (LX : length (Ex m) = a_nr a) by congruence.
  unfold save_matrix, load_matrix, read_matrix. rewrite W. destruct T as [[F [q ->]]|[(F & N1 & N2)|F]]; rewrite F.
  - destruct (framed_ok corner a (Eg m) (Ex m) LG LX) as (b & K & _). rewrite K. cbn. eexists. split; [reflexivity|]. intros w. destruct (VR w) as (r & R1 & R2).
    exists r. split; [|exact R2]. unfold np_save. rewrite np_path_npy. unfold np_load. rewrite write_reads. cbn [rbind]. rewrite (framed_unframed _ _ _ _ _ A LG LX K). now rewrite R1.
  - destruct (framed_ok 0 a (Eg m) (Ex m) LG LX) as (b & K & B1 & B2). rewrite K. cbn. eexists. split; [reflexivity|]. intros w. destruct (VR w) as (r & R1 & R2).
    exists r. split; [|exact R2]. unfold loadtxt. rewrite write_reads, squeeze_2d by lia. cbn [rbind]. rewrite (framed_unframed _ _ _ _ _ A LG LX K). now rewrite R1.
  - eexists. split; [reflexivity|]. intros w. destruct (VR w) as (r & R1 & R2). exists r. split; [|exact R2]. unfold load_tar. rewrite save_tar_reads, tar_content_snd. cbn [snd]. now rewrite R1.
Qed.
Print Assumptions matrix_round_trip.

Definition nofs : fs := fun _ => None.
Definition idq (x : Qc) : Qc := x.
Definition wd : path := pth "/w".
Local Notation vsave := (save_vector wd idq idq).
Local Notation msave := (save_matrix wd 0 idq idq).
Definition xv : vector := mkV (ql [5; 7; 9]%Z) (ql [1; 2; 3]%Z) None MeV.
Definition xm : matrix := mkM (mkArr 3 [ql [3; 1; 4]; ql [2; 6; 5]]%Z) (ql [1; 2; 3]%Z) (ql [10; 20]%Z) None None.
Example xm_ok : matrix_ok xm. Proof. repeat split. intros r [<-|[<-|[]]]; reflexivity. Qed.
Definition olderr (l : option (list Qc)) (m : list Z) : bool := match l with Some s => leqb s (ql m) | None => false end.
Example xv_trip : match load_vector wd (exec (fst (vsave xv (pth "v.csv") None UKeV)) nofs) (mkV [] [] None KeV) (pth "v.csv") None with
  | (_, (v, Ok tt)) => leqb (v_values v) (ql [5; 7; 9]%Z) && leqb (v_E v) (ql [1000; 2000; 3000]%Z) | _ => false end = true.
Proof. vm_compute. reflexivity. Qed.

(* C31 refuted: a vector without std saved as tar and loaded into a vector with std keeps
   that std *)
Theorem vector_tar_std_refuted : exists v w p, vector_ok v /\ v_std v = None /\
  snd (vsave v p None USame) = Ok tt /\
  exists v', snd (load_vector wd (exec (fst (vsave v p None USame)) nofs) w p None) = (v', Ok tt) /\ v_std v' <> None.
Proof.
  exists xv, (mkV (ql [0; 0; 0]%Z) (ql [0; 0; 0]%Z) (Some (ql [1; 1; 1]%Z)) MeV), (pth "v.tar").
  split; [split; [reflexivity|discriminate]|]. split; [reflexivity|]. split; [reflexivity|].
  eexists. split; [vm_compute; reflexivity|]. discriminate.
Qed.
Print Assumptions vector_tar_std_refuted.
(* ... the same for matrices with every file type; here loading succeeds with the std of
   another matrix *)
Theorem matrix_std_refuted : exists m w p, matrix_ok m /\ std m = None /\
  snd (msave m p None WValues) = Ok tt /\
  exists m', snd (load_matrix wd (exec (fst (msave m p None WValues)) nofs) w p None) = (m', Ok tt) /\ std m' = std w /\ std w <> None.
Proof.
  exists xm, (mkM (mkArr 3 [ql [0; 0; 0]; ql [0; 0; 0]]%Z) (ql [0; 0; 0]%Z) (ql [0; 0]%Z) (Some (mkArr 3 [ql [1; 1; 1]; ql [1; 1; 1]]%Z)) None), (pth "m.npy").
  split; [exact xm_ok|]. split; [reflexivity|]. split; [reflexivity|].
  eexists. split; [vm_compute; reflexivity|]. split; [vm_compute; reflexivity|discriminate].
Qed.
Print Assumptions matrix_std_refuted.
(* C31 refuted: a vector in MeV saved with the default arguments and loaded into itself has
   energies a thousand times too large *)
Theorem vector_units_refuted : exists v p v', vector_ok v /\ load_vector wd (exec (fst (vsave v p None UKeV)) nofs) v p None = ([], (v', Ok tt)) /\
  v_units v' = v_units v /\ v_E v' <> v_E v.
Proof.
  exists xv, (pth "v.npy"). eexists. split; [split; [reflexivity|discriminate]|]. split; [vm_compute; reflexivity|]. split; [reflexivity|]. cbn [v_E].
  intros E. apply (f_equal (fun l => qeqb (vget l 0) 1)) in E. vm_compute in E. discriminate.
Qed.
Print Assumptions vector_units_refuted.
(* C31 refuted: a vector with one bin saved as text cannot be loaded *)
Theorem vector_txt_single_refuted : exists v p, vector_ok v /\ snd (vsave v p None UKeV) = Ok tt /\
  forall w, snd (load_vector wd (exec (fst (vsave v p None UKeV)) nofs) w p None) = (w, Raise IndexError).
Proof. exists (mkV [1] [1] None KeV), (pth "v.txt"). split; [split; [reflexivity|discriminate]|]. split; [reflexivity|]. intros w. vm_compute. reflexivity. Qed.
Print Assumptions vector_txt_single_refuted.
(* C31 refuted: with filetype='numpy' and another suffix the file is stored under another
   name and not found again *)
Theorem numpy_suffix_refuted : exists v p ft, vector_ok v /\ snd (vsave v p ft UKeV) = Ok tt /\
  forall w, snd (load_vector wd (exec (fst (vsave v p ft UKeV)) nofs) w p ft) = (w, Raise OSErr).
Proof. exists (mkV [1] [1] None KeV), (pth "v.dat"), (Some (pth "numpy")). split; [split; [reflexivity|discriminate]|]. split; [reflexivity|]. intros w. vm_compute. reflexivity. Qed.
Print Assumptions numpy_suffix_refuted.

(* ---- C32 ------------------------------------------------------------------------- *)
Lemma printed_zero rd e : printed rd e -> rd 0 = 0.
Proof. intros [H P]. specialize (P 0). destruct (qabs_spec (rd 0 - 0)) as [[A B]|[A B]]; destruct (qabs_spec 0) as [[A' B']|[A' B']]; rewrite B, B' in P; qlra. Qed.
Lemma axis_error rd e l a b i : printed rd e -> equidistant l a b -> (i < length l)%nat ->
  qabs (rd a + rd b * qnat i + rd 0 * (qnat i * qnat i) - vget l i) <= e * (qabs a + qabs b * qnat i).
Proof.
  intros P EQ I. rewrite (printed_zero _ _ P), (EQ i I). destruct P as [E P]. pose proof (P a) as A. pose proof (P b) as B. pose proof (qnat_nonneg i) as N.
  replace (rd a + rd b * qnat i + 0 * (qnat i * qnat i) - (a + b * qnat i)) with ((rd a - a) + (rd b - b) * qnat i) by ring.
  assert (T : qabs ((rd a - a) + (rd b - b) * qnat i) <= qabs (rd a - a) + qabs (rd b - b) * qnat i).
  { generalize (rd a - a) (rd b - b). intros x y. destruct (qabs_spec y) as [[Y ->]|[Y ->]].
    - pose proof (Qcmult_nonneg _ _ Y N). destruct (qabs_spec x) as [[X ->]|[X ->]]; destruct (qabs_spec (x + y * qnat i)) as [[Z ->]|[Z ->]]; qlra.
    - assert (0 <= - y) by qlra. pose proof (Qcmult_nonneg (- y) (qnat i) H N). destruct (qabs_spec x) as [[X ->]|[X ->]]; destruct (qabs_spec (x + y * qnat i)) as [[Z ->]|[Z ->]]; qlra. }
  assert (U : qabs (rd b - b) * qnat i <= e * qabs b * qnat i).
  { apply Qcmult_le_compat_r; assumption. }
  qlra.
Qed.
Lemma quadratic_length c n : length (quadratic c n) = n.
Proof. destruct c as [[a0 a1] a2]. apply tab_length. Qed.
Lemma equidistant_start l a b : equidistant l a b -> (2 <= length l)%nat -> exists t, l = a :: a + b :: t.
Proof.
  intros E L. destruct l as [|x [|y t]]; cbn in L; try lia. exists t. pose proof (E 0%nat ltac:(cbn; lia)) as E0. pose proof (E 1%nat ltac:(cbn; lia)) as E1.
  cbn in E0, E1. rewrite qnat_0 in E0. rewrite qnat_1 in E1. f_equal; [rewrite E0; ring|]. f_equal. rewrite E1. ring.
Qed.
Theorem mama_matrix_round_trip : forall cwd corner rd6 rd8 e6 e8 d m p ft g0 dg x0 dx, printed rd6 e6 -> printed rd8 e8 -> matrix_ok m ->
  equidistant (Eg m) g0 dg -> equidistant (Ex m) x0 dx -> (2 <= a_nr (values m))%nat -> (2 <= a_nc (values m))%nat ->
  (Z.of_nat (a_nr (values m)) <= 2048)%Z -> (Z.of_nat (a_nc (values m)) <= 2048)%Z -> filetype p ft = TMama ->
  exists ops, save_matrix cwd corner rd6 rd8 m p ft WValues = (ops, Ok tt) /\ forall w, std w = None -> exists m',
    snd (load_matrix cwd (exec ops d) w p ft) = (m', Ok tt) /\
    shape (values m') = shape (values m) /\
    (forall i j, (i < a_nr (values m))%nat -> (j < a_nc (values m))%nat -> qabs (aget (values m') i j - aget (values m) i j) <= e8 * qabs (aget (values m) i j)) /\
    length (Eg m') = length (Eg m) /\ (forall j, (j < length (Eg m))%nat -> qabs (vget (Eg m') j - vget (Eg m) j) <= e6 * (qabs g0 + qabs dg * qnat j)) /\
    length (Ex m') = length (Ex m) /\ (forall i, (i < length (Ex m))%nat -> qabs (vget (Ex m') i - vget (Ex m) i) <= e6 * (qabs x0 + qabs dx * qnat i)).
Proof.
  intros cwd corner rd6 rd8 e6 e8 d m p ft g0 dg x0 dx P6 P8 (M1 & M2 & M3) QG QX NR NC LR LC F. unfold save_matrix. rewrite F. unfold mama_write2D.
  destruct (Z.ltb_spec 2048 (Z.of_nat (a_nr (values m)))); [lia|]. destruct (Z.ltb_spec 2048 (Z.of_nat (a_nc (values m)))); [lia|]. cbn [orb].
  destruct (equidistant_start _ _ _ QG ltac:(lia)) as [tg EG]. destruct (equidistant_start _ _ _ QX ltac:(lia)) as [tx EX].
  assert (C : calibration m = Ok (x0, dx, g0, dg)).
  { unfold calibration. rewrite EG, EX. replace (x0 + dx - x0) with dx by ring. replace (g0 + dg - g0) with dg by ring. reflexivity. }
  rewrite C. eexists. split; [reflexivity|]. intros w SW. unfold load_matrix, read_matrix. rewrite F. unfold mama_read. rewrite write_reads.
  assert (S2 : a_nr (amap rd8 (values m)) = a_nr (values m)) by apply map_length. change (a_nc (amap rd8 (values m))) with (a_nc (values m)). rewrite S2.
  destruct (Nat.leb_spec (a_nr (values m)) 1); [lia|]. destruct (Nat.leb_spec (a_nc (values m)) 1); [lia|]. cbn [orb rbind snd].
  eexists. split.
  { f_equal. unfold verify_integrity. cbn [values Ex Eg std]. rewrite SW, S2, !quadratic_length, Nat.eqb_refl. cbn [negb a_nc amap]. rewrite Nat.eqb_refl. reflexivity. }
  cbn [values Eg Ex]. split; [unfold shape; now rewrite S2|]. split.
  { intros i j I J. unfold aget, mget, amap. cbn [a_rows]. rewrite (map_nth_in _ _ _ []) by exact I. unfold vget.
    rewrite (map_nth_in _ _ _ 0) by (rewrite (M1 _ (nth_In _ _ I)); exact J). apply (proj2 P8). }
  rewrite !quadratic_length. split; [now rewrite M3|]. split.
  { intros j J. unfold quadratic. unfold vget at 1. rewrite nth_tab by (rewrite <- M3; exact J). now apply axis_error. }
  split; [now rewrite M2|]. intros i I. unfold quadratic. unfold vget at 1. rewrite nth_tab by (rewrite <- M2; exact I). now apply axis_error.
Qed.
Print Assumptions mama_matrix_round_trip.
(* Spectra in keV.  Missing: spectra in MeV, which are written unconverted (refuted below). *)
Theorem mama_vector_round_trip_partial : forall cwd rd6 rd8 e6 e8 d v p ft u a b, printed rd6 e6 -> printed rd8 e8 -> vector_ok v -> v_units v = KeV -> u <> UOther ->
  equidistant (v_E v) a b -> (2 <= length (v_E v))%nat -> (Z.of_nat (length (v_E v)) <= 8192)%Z -> filetype p ft = TMama ->
  exists ops, save_vector cwd rd6 rd8 v p ft u = (ops, Ok tt) /\ forall w, v_std w = None -> exists v',
    snd (load_vector cwd (exec ops d) w p ft) = (v', Ok tt) /\
    length (v_values v') = length (v_values v) /\ (forall i, (i < length (v_values v))%nat -> qabs (vget (v_values v') i - vget (v_values v) i) <= e8 * qabs (vget (v_values v) i)) /\
    length (v_E v') = length (v_E v) /\ (forall i, (i < length (v_E v))%nat -> qabs (vget (v_E v') i - vget (v_E v) i) <= e6 * (qabs a + qabs b * qnat i)).
Proof.
  intros cwd rd6 rd8 e6 e8 d v p ft u a b P6 P8 [V1 V2] UN NU Q N L F. unfold save_vector. rewrite F.
  assert (C : exists x, convert u v = Ok x /\ exists y, to_keV x = Ok y).
  { unfold convert, to_keV, to_MeV. rewrite UN. destruct u; try contradiction; eexists; (split; [reflexivity|]); cbn; rewrite ?UN; eexists; reflexivity. }
  destruct C as (x & C1 & y & C2). rewrite C1, C2. unfold mama_write1D. destruct (Z.ltb_spec 8192 (Z.of_nat (length (v_values v)))); [lia|].
  destruct (equidistant_start _ _ _ Q N) as [t ET]. assert (C : v_calibration v = Ok (a, b)) by (unfold v_calibration; rewrite ET; replace (a + b - a) with b by ring; reflexivity).
  rewrite C. eexists. split; [reflexivity|]. intros w SW. unfold load_vector, read_vector. rewrite F. unfold mama_read. rewrite write_reads, map_length.
  destruct (Nat.leb_spec (length (v_values v)) 1); [lia|]. cbn [rbind snd]. rewrite SW. eexists. split.
  { f_equal. apply verify_ok. split; cbn; [rewrite tab_length, map_length; reflexivity|discriminate]. }
  cbn [v_values v_E]. rewrite map_length. split; [reflexivity|]. split.
  { intros i I. unfold vget. rewrite (map_nth_in _ _ _ 0) by exact I. apply (proj2 P8). }
  rewrite quadratic_length. split; [now rewrite V1|]. intros i I. unfold quadratic. unfold vget at 1. rewrite nth_tab by (rewrite <- V1; exact I). now apply axis_error.
Qed.
Print Assumptions mama_vector_round_trip_partial.
Example mama_example : match load_matrix wd (exec (fst (msave xm (pth "m.m") None WValues)) nofs) xm (pth "m.m") None with
  | (_, (m, Ok tt)) => lleqb (a_rows (values m)) [ql [3; 1; 4]; ql [2; 6; 5]]%Z && leqb (Eg m) (ql [1; 2; 3]%Z) && leqb (Ex m) (ql [10; 20]%Z) | _ => false end = true.
Proof. vm_compute. reflexivity. Qed.
Example printed_id : printed idq 0.
Proof. split; [apply Qcle_refl|]. intros x. unfold idq. replace (x - x) with (0:Qc) by ring. replace (0 * qabs x) with (0:Qc) by ring. now apply qleb_le. Qed.
(* C32 refuted: a vector in MeV is written with its MeV calibration although the file is in
   keV; read back into a fresh (keV) vector the energies are a thousand times too small *)
Theorem mama_units_refuted : exists v p, vector_ok v /\ v_units v = MeV /\ equidistant (v_E v) 1 1 /\ snd (vsave v p None UKeV) = Ok tt /\
  exists v', snd (load_vector wd (exec (fst (vsave v p None UKeV)) nofs) (mkV [] [] None KeV) p None) = (v', Ok tt) /\
  v_units v' = KeV /\ v_E v' = v_E v.
Proof.
  exists xv, (pth "v.m"). split; [split; [reflexivity|discriminate]|]. split; [reflexivity|]. split.
  { intros i I. cbn in I. apply qeqb_eq. destruct i as [|[|[|i]]]; [vm_compute; reflexivity..|lia]. }
  split; [reflexivity|].
  assert (X : match snd (load_vector wd (exec (fst (vsave xv (pth "v.m") None UKeV)) nofs) (mkV [] [] None KeV) (pth "v.m") None) with
     | (v', Ok tt) => (leqb (v_E v') (v_E xv) && match v_units v' with KeV => true | _ => false end)%bool | _ => false end = true) by (vm_compute; reflexivity).
  destruct (snd _) as [v' [[]|]]; [|discriminate]. apply andb_prop in X. destruct X as [X1 X2]. exists v'. split; [reflexivity|].
  split; [now destruct (v_units v')|]. now apply leqb_eq.
Qed.
Print Assumptions mama_units_refuted.
(* C32 refuted: asking for std, the values are written *)
Theorem mama_std_refuted : exists m s p, matrix_ok m /\ std m = Some s /\ msave m p None WStd = msave m p None WValues /\ snd (msave m p None WStd) = Ok tt /\ s <> values m.
Proof.
  exists (mkM (values xm) (Eg xm) (Ex xm) (Some (mkArr 3 [ql [1; 1; 1]; ql [1; 1; 1]]%Z)) None). eexists. exists (pth "m.m").
  split; [exact xm_ok|]. split; [reflexivity|]. split; [reflexivity|]. split; [reflexivity|].
  intros E. apply (f_equal (fun a => qeqb (aget a 0 0) 1)) in E. vm_compute in E. discriminate.
Qed.
Print Assumptions mama_std_refuted.

(* ---- C33 ------------------------------------------------------------------------- *)
(* the file a save with these arguments is about; numpy adds .npy to other names *)
Definition own_file (cwd p : path) (ft : option path) (q : path) : Prop :=
  q = abs cwd p \/ (filetype p ft = TNumpy /\ (forall x, p <> x ++ pth ".npy") /\ q = abs cwd (p ++ pth ".npy")).
Lemma np_own cwd p ft : filetype p ft = TNumpy -> own_file cwd p ft (abs cwd (np_path p)).
Proof.
  intros F. unfold np_path. destruct (peqb (skipn (length p - 4) p) (pth ".npy")) eqn:E; [now left|]. right. split; [exact F|]. split; [|reflexivity].
  intros x ->. rewrite app_length in E. change (length (pth ".npy")) with 4%nat in E. rewrite Nat.add_sub, skipn_app, skipn_all, Nat.sub_diag in E. discriminate.
Qed.
Theorem save_touches_own_file_vector : forall cwd rd6 rd8 d v p ft u d', filetype p ft <> TTar ->
  crash_state (fst (save_vector cwd rd6 rd8 v p ft u)) d d' -> only (own_file cwd p ft) d d'.
Proof.
  intros cwd rd6 rd8 d v p ft u d' N. apply exec_prefix_only. intros o. unfold save_vector. destruct (convert u v) as [w|]; [|intros []].
  destruct (filetype p ft) eqn:F; try contradiction.
  - destruct (columns _ _ _); [|intros []]. cbn. intros H. rewrite (write_target _ _ _ _ H). now apply np_own.
  - destruct (columns _ _ _); [|intros []]. cbn. intros H. change (In o (write cwd p (FTxt a))) in H. rewrite (write_target _ _ _ _ H). now left.
  - destruct (to_keV w); [|intros []]. unfold mama_write1D. destruct (_ <? _)%Z; [intros []|]. destruct (v_calibration v) as [[a0 a1]|]; [|intros []].
    cbn [fst]. intros H. rewrite (write_target _ _ _ _ H). now left.
  - destruct (columns _ _ _); [|intros []]. cbn [written rmap fst]. intros H. rewrite (write_target _ _ _ _ H). now left.
Qed.
Print Assumptions save_touches_own_file_vector.
Theorem save_touches_own_file_matrix : forall cwd corner rd6 rd8 d m p ft which d', filetype p ft <> TTar ->
  crash_state (fst (save_matrix cwd corner rd6 rd8 m p ft which)) d d' -> only (own_file cwd p ft) d d'.
Proof.
  intros cwd corner rd6 rd8 d m p ft which d' N. apply exec_prefix_only. intros o. unfold save_matrix.
  destruct (match which with WValues => _ | _ => _ end) as [v|]; [|intros []]. destruct (filetype p ft) eqn:F; try contradiction; try (intros []).
  - destruct (framed _ _ _ _); [|intros []]. cbn. intros H. rewrite (write_target _ _ _ _ H). now apply np_own.
  - destruct (framed _ _ _ _); [|intros []]. cbn [written rmap fst]. intros H. rewrite (write_target _ _ _ _ H). now left.
  - unfold mama_write2D. destruct (_ || _)%bool; [intros []|]. destruct (calibration m) as [[[[a b] c] e]|]; [|intros []].
    cbn [fst]. intros H. rewrite (write_target _ _ _ _ H). now left.
Qed.
Print Assumptions save_touches_own_file_matrix.
(* tar: while running the numbered temporary files are touched, too; afterwards they do not
   exist.  Missing: files of those names that existed before (refuted below), crashes. *)
Theorem save_tar_touches_partial : forall cwd d p objs,
  (forall d', crash_state (save_tar cwd objs p) d d' ->
     only (fun q => q = abs cwd (tar_path p) \/ exists i, (i < length objs)%nat /\ q = abs cwd (tmp_path p i)) d d') /\
  (forall i, (i < length objs)%nat -> exec (save_tar cwd objs p) d (abs cwd (tmp_path p i)) = None) /\
  ((forall i, (i < length objs)%nat -> d (abs cwd (tmp_path p i)) = None) ->
     only (fun q => q = abs cwd (tar_path p)) d (exec (save_tar cwd objs p) d)).
Proof.
  intros cwd d p objs. split; [intros d'; apply exec_prefix_only; intros o O; exact (save_tar_target _ _ _ _ O)|].
  assert (G : forall i, (i < length objs)%nat -> exec (save_tar cwd objs p) d (abs cwd (tmp_path p i)) = None).
  { intros i I. unfold save_tar. rewrite !exec_app. cbn [exec fold_left]. rewrite exec1_other by apply tmp_not_tar.
    apply (tar_members_gone cwd p objs 0). lia. }
  split; [exact G|]. intros H q N.
  destruct (in_dec (list_eq_dec Ascii.ascii_dec) q (map target (save_tar cwd objs p))) as [I|I].
  - apply in_map_iff in I. destruct I as (o & E & I). destruct (save_tar_target _ _ _ _ I) as [T|(i & L & T)]; [congruence|].
    rewrite <- E, T, G, H by exact L. reflexivity.
  - apply exec_other. intros o O E. apply I. rewrite <- E. now apply in_map.
Qed.
Print Assumptions save_tar_touches_partial.
Theorem save_as_tar : forall cwd corner rd6 rd8 m p ft which v, filetype p ft = TTar -> chosen m which v ->
  save_matrix cwd corner rd6 rd8 m p ft which = (save_tar cwd [N2 v; N1 (Eg m); N1 (Ex m)] p, Ok tt).
Proof. intros cwd corner rd6 rd8 m p ft which v F [[-> ->]|[-> H]]; unfold save_matrix; [|rewrite H]; now rewrite F. Qed.
Print Assumptions save_as_tar.
(* loading changes nothing, except that tar members are unpacked in the current directory *)
Theorem load_changes_nothing_partial : forall cwd d p ft,
  (filetype p ft <> TTar -> (forall w, fst (load_vector cwd d w p ft) = []) /\ (forall w, fst (load_matrix cwd d w p ft) = [])) /\
  (forall ms, d (abs cwd (tar_path p)) = Some (FTar ms) -> (forall n x, In (n, x) ms -> d (abs cwd n) = None) -> forall q, exec (fst (load_tar cwd d p)) d q = d q).
Proof.
  intros cwd d p ft. split.
  - intros N. unfold load_vector, read_vector, load_matrix, read_matrix. destruct (filetype p ft); try contradiction; split; intros w; reflexivity.
  - intros ms E H q. unfold load_tar. rewrite E. cbn [fst]. rewrite extract_all_effect. destruct (existsb _ ms) eqn:B; [|reflexivity].
    apply existsb_exists in B. destruct B as ([n x] & I & P). apply peqb_eq in P. cbn [fst] in P. subst q. symmetry. exact (H n x I).
Qed.
Print Assumptions load_changes_nothing_partial.

Definition one_file (p : path) : fs := fun q => if peqb q p then Some (FOther 7) else None.
(* C33 refuted: saving m.tar deletes an existing m0.npy *)
Theorem save_tar_deletes_refuted : exists m p d q, matrix_ok m /\ snd (msave m p None WValues) = Ok tt /\ d q = Some (FOther 7) /\
  exec (fst (msave m p None WValues)) d q = None.
Proof. exists xm, (pth "/data/m.tar"), (one_file (pth "/data/m0.npy")), (pth "/data/m0.npy"). split; [exact xm_ok|]. repeat split; vm_compute; reflexivity. Qed.
Print Assumptions save_tar_deletes_refuted.
(* C33 refuted: for a path without suffix, the temporary files are 0.npy, 1.npy, ... in the
   current directory, wherever the archive goes *)
Theorem save_tar_no_suffix_refuted : exists m p d q, matrix_ok m /\ snd (msave m p (Some (pth "tar")) WValues) = Ok tt /\ d q = Some (FOther 7) /\
  p = pth "/data/run" /\ q = pth "/w/0.npy" /\ exec (fst (msave m p (Some (pth "tar")) WValues)) d q = None.
Proof. exists xm, (pth "/data/run"), (one_file (pth "/w/0.npy")), (pth "/w/0.npy"). split; [exact xm_ok|]. repeat split; vm_compute; reflexivity. Qed.
Print Assumptions save_tar_no_suffix_refuted.
(* C33 refuted: interrupted, a temporary file stays behind *)
Theorem save_tar_crash_refuted : exists m p d' q, matrix_ok m /\ crash_state (fst (msave m p None WValues)) nofs d' /\
  q <> abs wd p /\ d' q <> None.
Proof.
  exists xm, (pth "/data/m.tar"), (exec (firstn 3 (fst (msave xm (pth "/data/m.tar") None WValues))) nofs), (pth "/data/m0.npy"). split; [exact xm_ok|].
  split; [now exists 3%nat|]. split; vm_compute; discriminate.
Qed.
Print Assumptions save_tar_crash_refuted.
(* C33 refuted: loading /data/m.tar deletes data/m0.npy below the current directory *)
Theorem load_tar_deletes_refuted : exists m p d q, matrix_ok m /\ d q = Some (FOther 7) /\
  let d1 := exec (fst (msave m p None WValues)) d in d1 q = Some (FOther 7) /\
  snd (load_matrix wd d1 xm p None) = (m, Ok tt) /\ exec (fst (load_matrix wd d1 xm p None)) d1 q = None.
Proof. exists xm, (pth "/data/m.tar"), (one_file (pth "/w/data/m0.npy")), (pth "/w/data/m0.npy"). split; [exact xm_ok|]. repeat split; vm_compute; reflexivity. Qed.
Print Assumptions load_tar_deletes_refuted.
