(** Concrete meshes for the conversion to a curvilinear grid. *)
From Coq Require Import Permutation.
From Verif Require Import Base BaseLemmas FloatModel MeshModel MeshSpec MeshAdj MeshConstruct MeshEdits MeshWitness FaceModel FaceSpec FaceUseSpec FaceMain FaceUseMain SplitModel SplitSpec SplitWitness
  ConvertModel ConvertSpec ConvertProofs ConvertMain ConvertFront ConvertGrow ConvertFinal ConvertComplete ConvertTop.

(** Deciding the hypotheses *)
Definition joinsb (ed : edge) (a b : nat) : bool :=
  match ed with (Some x, Some y) => ((x =? a) && (y =? b)) || ((x =? b) && (y =? a)) | _ => false end.
Lemma joinsb_ok ed a b : joinsb ed a b = true <-> joins ed a b.
Proof.
  unfold joinsb, joins. destruct ed as [[x|] [y|]]; try (split; [discriminate|intros [H|H]; discriminate]). rewrite orb_true_iff, !andb_true_iff, !Nat.eqb_eq. split.
  - intros [(-> & ->)|(-> & ->)]; auto.
  - intros [H|H]; injection H as -> ->; auto.
Qed.
Definition no_bareb (m : mesh) (f : faces) : bool :=
  forallb (fun e => match edge_at m e with (Some _, Some _) => match faces_with f e with [] => false | _ => true end | _ => true end) (seq 0 (length (m_edges m))).
Lemma no_bareb_ok m f : no_bareb m f = true -> no_bare_edges m f.
Proof.
  intros H e a b He J. unfold no_bareb in H. rewrite forallb_forall in H. specialize (H e ltac:(apply in_seq; lia)). destruct J as [J|J]; rewrite J in H; intros E; rewrite E in H; discriminate.
Qed.
Definition nearb (m : mesh) (a b : nat) : bool := existsb (fun e => joinsb (edge_at m e) a b) (seq 0 (length (m_edges m))).
Lemma nearb_ok m a b : nearb m a b = true <-> neighbour m a b.
Proof.
  unfold nearb, neighbour. rewrite existsb_exists. split.
  - intros (e & He & J). apply in_seq in He. exists e. split; [lia|now apply joinsb_ok].
  - intros (e & He & J). exists e. split; [apply in_seq; lia|now apply joinsb_ok].
Qed.
Definition few_commonb (m : mesh) : bool :=
  let ns := seq 0 (length (m_nodes m)) in
  forallb (fun a => forallb (fun b => (a =? b) || (length (filter (fun x => nearb m a x && nearb m b x) ns) <=? 2)) ns) ns.
Lemma few_commonb_ok m : well_indexed (m_nodes m) (m_edges m) -> few_commonb m = true -> few_common m.
Proof.
  intros W H a b x y z Nab N1 N2 N3 Ax Ay Az Bx By Bz.
  assert (K : forall u v, neighbour m u v -> u < length (m_nodes m) /\ v < length (m_nodes m)).
  { intros u v (e & He & J). destruct (joins_ends _ _ _ J). split; apply (W (edge_at m e)); auto; apply nth_In; exact He. }
  unfold few_commonb in H. cbv zeta in H. rewrite forallb_forall in H. specialize (H a ltac:(apply in_seq; destruct (K a x Ax); lia)). rewrite forallb_forall in H. specialize (H b ltac:(apply in_seq; destruct (K b x Bx); lia)).
  apply orb_true_iff in H as [H|H]; [apply Nat.eqb_eq in H; contradiction|]. apply Nat.leb_le in H. set (l := filter _ _) in H.
  assert (X : incl [x; y; z] l).
  { intros w Hw. apply filter_In. split; [apply in_seq; destruct Hw as [<-|[<-|[<-|[]]]]; [destruct (K a x Ax)|destruct (K a y Ay)|destruct (K a z Az)]; lia|]. apply andb_true_iff. rewrite !nearb_ok. destruct Hw as [<-|[<-|[<-|[]]]]; auto. }
  apply NoDup_incl_length in X; [cbn in X; lia|]. do 3 (constructor; [cbn; intuition congruence|]). constructor.
Qed.
Definition same_idx (a b : option nat) : bool := match a, b with Some a, Some b => a =? b | None, None => true | _, _ => false end.
Fixpoint onceb (l : list (option nat)) : bool := match l with [] => true | a :: l => negb (existsb (same_idx a) l) && onceb l end.
Lemma onceb_ok l : onceb l = true -> NoDup l.
Proof.
  induction l as [|a l IH]; intros H; [constructor|]. cbn in H. apply andb_true_iff in H as (H1 & H2). constructor; [|now apply IH]. intros Hin. apply negb_true_iff in H1.
  assert (E : existsb (same_idx a) l = true) by (apply existsb_exists; exists a; split; [exact Hin|]; destruct a; [apply Nat.eqb_refl|reflexivity]). congruence.
Qed.
Definition lists_allb (m : mesh) : bool :=
  forallb (fun n => (degree_of m n =? length (row_of m n)) && onceb (row_of m n) &&
    forallb (fun oe => match oe with Some e => (e <? length (m_edges m)) && match edge_at m e with (Some x, Some y) => (x =? n) || (y =? n) | _ => false end | None => false end) (row_of m n) &&
    forallb (fun e => match edge_at m e with (Some x, Some y) => if (x =? n) || (y =? n) then existsb (fun oe => match oe with Some e' => e =? e' | None => false end) (row_of m n) else true | _ => true end) (seq 0 (length (m_edges m))))
    (seq 0 (length (m_nodes m))).
Lemma lists_allb_ok m : lists_allb m = true -> lists_all m.
Proof.
  intros H n Hn. unfold lists_allb in H. rewrite forallb_forall in H. specialize (H n ltac:(apply in_seq; lia)). rewrite !andb_true_iff in H. destruct H as (((H1 & H2) & H3) & H4).
  split; [now apply Nat.eqb_eq|]. split; [now apply onceb_ok|]. rewrite forallb_forall in H3, H4. intros oe. split.
  - intros Hin. specialize (H3 oe Hin). destruct oe as [e|]; [|discriminate]. apply andb_true_iff in H3 as (L & E). apply Nat.ltb_lt in L. exists e. unfold joins. destruct (edge_at m e) as [[x|] [y|]]; try discriminate.
    apply orb_true_iff in E as [E|E]; apply Nat.eqb_eq in E; subst; eauto.
  - intros (e & o & -> & L & J). specialize (H4 e ltac:(apply in_seq; lia)). assert (E : existsb (fun oe => match oe with Some e' => e =? e' | None => false end) (row_of m n) = true).
    { destruct J as [J|J]; rewrite J, Nat.eqb_refl, ?orb_true_r in H4; exact H4. }
    apply existsb_exists in E as ([e'|] & Hin & E); [|discriminate]. apply Nat.eqb_eq in E. now subst.
Qed.
Definition besideb (p q : Z * Z) : bool := (Z.abs (fst p - fst q) + Z.abs (snd p - snd q) =? 1)%Z.
Definition unit_cellb (pos : nat -> option (Z * Z)) (ns : list nat) : bool :=
  match ns with
  | [a; b; c; d] =>
      match pos a, pos b, pos c, pos d with
      | Some p, Some q, Some r, Some s => besideb p q && besideb q r && besideb r s && besideb s p && negb (pos_eqb p r) && negb (pos_eqb q s)
      | _, _, _, _ => false
      end
  | _ => false
  end.
Lemma unit_cellb_ok pos ns : unit_cellb pos ns = true -> unit_cell pos ns.
Proof.
  unfold unit_cellb. destruct ns as [|a [|b [|c [|d [|]]]]]; try discriminate. destruct (pos a) as [p|] eqn:Ea; [|discriminate]. destruct (pos b) as [q|] eqn:Eb; [|discriminate]. destruct (pos c) as [r|] eqn:Ec; [|discriminate].
  destruct (pos d) as [s|] eqn:Ed; [|discriminate]. rewrite !andb_true_iff, !negb_true_iff. unfold besideb. rewrite !Z.eqb_eq. intros (((((H1 & H2) & H3) & H4) & H5) & H6). exists a, b, c, d, p, q, r, s.
  split; [reflexivity|]. do 4 (split; [assumption|]). do 4 (split; [assumption|]). split; [destruct (pos_eqb_spec p r); [discriminate|assumption]|destruct (pos_eqb_spec q s); [discriminate|assumption]].
Qed.
Definition griddedb (m : mesh) (f : faces) (l : list (option (Z * Z))) : bool :=
  let pos n := nth n l None in let ns := seq 0 (length l) in
  forallb (fun a => forallb (fun b => match pos a, pos b with
    | Some p, Some q => ((a =? b) || negb (pos_eqb p q)) && (negb (besideb p q) ||
        existsb (fun e => joinsb (edge_at m e) a b && existsb (fun c => length (nth c (faces_nodes f) []) =? 4) (faces_with f e)) (seq 0 (length (m_edges m))))
    | _, _ => true
    end) ns) ns &&
  forallb (fun ns => if length ns =? 4 then unit_cellb pos ns else true) (faces_nodes f).
Lemma griddedb_ok m f l : griddedb m f l = true -> gridded m f (fun n => nth n l None).
Proof.
  unfold griddedb. cbv zeta. rewrite andb_true_iff. intros (H1 & H2). rewrite forallb_forall in H1, H2.
  assert (X : forall a b p q, nth a l None = Some p -> nth b l None = Some q -> ((a =? b) || negb (pos_eqb p q)) && (negb (besideb p q) ||
        existsb (fun e => joinsb (edge_at m e) a b && existsb (fun c => length (nth c (faces_nodes f) []) =? 4) (faces_with f e)) (seq 0 (length (m_edges m)))) = true).
  { intros a b p q Ha Hb. assert (La : a < length l) by (destruct (Nat.lt_ge_cases a (length l)); [assumption|rewrite nth_overflow in Ha by assumption; discriminate]).
    assert (Lb : b < length l) by (destruct (Nat.lt_ge_cases b (length l)); [assumption|rewrite nth_overflow in Hb by assumption; discriminate]).
    specialize (H1 a ltac:(apply in_seq; lia)). rewrite forallb_forall in H1. specialize (H1 b ltac:(apply in_seq; lia)). rewrite Ha, Hb in H1. exact H1. }
  constructor.
  - intros a b p Ha Hb. specialize (X a b p p Ha Hb). apply andb_true_iff in X as (X & _). apply orb_true_iff in X as [X|X]; [now apply Nat.eqb_eq|]. destruct (pos_eqb_spec p p); [discriminate|contradiction].
  - intros c ns (Q & L). specialize (H2 ns (nth_error_In _ _ Q)). rewrite L, Nat.eqb_refl in H2. now apply unit_cellb_ok.
  - intros a b p q Ha Hb B. specialize (X a b p q Ha Hb). apply andb_true_iff in X as (_ & X). apply orb_true_iff in X as [X|X].
    + unfold besideb in X. unfold beside in B. rewrite B in X. discriminate.
    + apply existsb_exists in X as (e & _ & X). apply andb_true_iff in X as (J & X). apply existsb_exists in X as (c & Hc & X). apply Nat.eqb_eq in X. exists e, c, (nth c (faces_nodes f) []).
      split; [now apply joinsb_ok|]. split; [exact Hc|]. split; [|exact X]. apply nth_error_nth'. destruct (Nat.lt_ge_cases c (length (faces_nodes f))); [assumption|rewrite nth_overflow in X by assumption; discriminate].
Qed.

(** *** Four quadrilaterals and a triangle *)
Definition corner_nodes : list point := [pt 0 0; pt 1 0; pt 2 0; pt 0 1; pt 1 1; pt 2 1; pt 0 2; pt 1 2; pt 2 2; pt 3 0].
Definition corner_edges : list edge := [e_ 0 1; e_ 1 2; e_ 3 4; e_ 4 5; e_ 6 7; e_ 7 8; e_ 0 3; e_ 3 6; e_ 1 4; e_ 4 7; e_ 2 5; e_ 5 8; e_ 2 9; e_ 9 5].
Definition constructed (nodes : list point) (edges : list edge) : mesh := match construct edges nodes Cartesian with Ok m => m | _ => Mesh [] [] [] [] Cartesian end.
Definition corner_mesh := searched corner_nodes corner_edges.
Definition here {A B} (k : nat) (_ : A) (_ : B) : nat := k.
Definition inside_it (_ : list point) : bool := true.
Lemma searched_from nodes edges : well_indexedb nodes edges = true ->
  well_indexed (m_nodes (constructed nodes edges)) (m_edges (constructed nodes edges)) /\
  administrate2d angle_order shoelace_sign (constructed nodes edges) = Ok (fst (searched nodes edges), snd (searched nodes edges)).
Proof.
  intros Hb. pose proof (well_indexedb_ok _ _ Hb) as Hw. destruct (delete_invalid_spec (Mesh nodes edges [] [] Cartesian) Hw) as (m0 & H0 & Hwf & _).
  change (construct edges nodes Cartesian = Ok m0) in H0. pose proof (well_formed_part_valid _ _ _ _ Hwf) as [_ Hend].
  assert (Hw0 : well_indexed (m_nodes m0) (m_edges m0)).
  { intros e n He Hn. destruct (Hend e He) as (a & b & -> & La & Lb). destruct Hn as [Hn|Hn]; cbn in Hn; injection Hn as <-; auto. }
  unfold constructed, searched. rewrite H0. split; [exact Hw0|]. destruct (administrate2d_ok angle_order angle_order_perm shoelace_sign m0 Hw0) as (m & f & Hm & _). rewrite Hm. reflexivity.
Qed.
Definition quadb (f : faces) (c : nat) (ns : list nat) : bool :=
  match nth_error (faces_nodes f) c with Some l => (length l =? 4) && (if list_eq_dec Nat.eq_dec l ns then true else false) | None => false end.
Lemma quadb_ok f c ns : quadb f c ns = true -> quad_nodes f c ns.
Proof.
  unfold quadb, quad_nodes. destruct (nth_error (faces_nodes f) c) as [l|]; [|discriminate]. destruct (list_eq_dec Nat.eq_dec l ns) as [->|]; [|rewrite andb_false_r; discriminate]. rewrite andb_true_r, Nat.eqb_eq. auto.
Qed.
Definition nonempty {A} (l : list A) : bool := match l with [] => false | _ => true end.
Lemma nonempty_ok {A} (l : list A) : nonempty l = true -> l <> [].
Proof. now destruct l. Qed.
Lemma searched_well nodes edges : well_indexedb nodes edges = true -> well_indexed (m_nodes (fst (searched nodes edges))) (m_edges (fst (searched nodes edges))).
Proof. intros H. destruct (searched_ok nodes edges H) as (C & _). apply C. Qed.

Definition convertible nodes edges (start : nat) (ns : list nat) : Prop :=
  let m := constructed nodes edges in let m' := fst (searched nodes edges) in let f := snd (searched nodes edges) in
  well_indexed (m_nodes m) (m_edges m) /\ m_nodes m <> [] /\ administrate2d angle_order shoelace_sign m = Ok (m', f) /\ num_faces f < 999 /\ quad_nodes f start ns.
Lemma convertible_ok nodes edges start ns : well_indexedb nodes edges = true -> nonempty (m_nodes (constructed nodes edges)) = true ->
  (num_faces (snd (searched nodes edges)) <? 9) = true -> quadb (snd (searched nodes edges)) start ns = true -> convertible nodes edges start ns.
Proof.
  intros H1 H2 H3 H4. destruct (searched_from nodes edges H1) as (W & E). split; [exact W|]. split; [now apply nonempty_ok|]. split; [exact E|]. split; [apply Nat.ltb_lt in H3; lia|now apply quadb_ok].
Qed.
Definition corner_places : list (option (Z * Z)) :=
  [Some (0, 1); Some (0, 0); Some (0, -1); Some (1, 1); Some (1, 0); Some (1, -1); Some (2, 1); Some (2, 0); Some (2, -1)]%Z.
Lemma corner_facts : convertible corner_nodes corner_edges 1 [0; 1; 4; 3] /\ no_bare_edges (fst corner_mesh) (snd corner_mesh) /\ few_common (fst corner_mesh) /\ lists_all (fst corner_mesh) /\
  gridded (fst corner_mesh) (snd corner_mesh) (fun n => nth n corner_places None).
Proof.
  split; [apply convertible_ok; vm_compute; reflexivity|]. split; [apply no_bareb_ok; vm_compute; reflexivity|]. split; [apply few_commonb_ok; [apply searched_well; vm_compute; reflexivity|vm_compute; reflexivity]|].
  split; [apply lists_allb_ok; vm_compute; reflexivity|]. apply griddedb_ok. vm_compute. reflexivity.
Qed.
(** The result: three rows of three points, all there; the triangle is left out. *)
Definition points_of (r : outcome (option (list (list point)) * mesh)) : option (list (list point)) := match r with Ok (Some rows, _) => Some rows | _ => None end.
Lemma corner_result : points_of (convert angle_order shoelace_sign (constructed corner_nodes corner_edges) (here 1) inside_it None) =
  Some [[pt 2 0; pt 2 1; pt 2 2]; [pt 1 0; pt 1 1; pt 1 2]; [pt 0 0; pt 0 1; pt 0 2]].
Proof. vm_compute. reflexivity. Qed.
Lemma has_face f e i : mem i (faces_with f e) = true -> In i (faces_with f e).
Proof. apply mem_in. Qed.
Lemma reached_by f start a b e ns : reached f start a -> mem a (faces_with f e) = true -> mem b (faces_with f e) = true -> quadb f b ns = true -> reached f start b.
Proof. intros H H1 H2 H3. exact (reached_over f start a b e ns H (has_face f e a H1) (has_face f e b H2) (quadb_ok f b ns H3)). Qed.
Lemma corner_reached : reached (snd corner_mesh) 1 4 /\ ~ reached (snd corner_mesh) 1 0.
Proof.
  split.
  - assert (H : reached (snd corner_mesh) 1 2) by (apply (reached_by _ 1 1 2 8 [1; 2; 5; 4] (reached_start _ 1)); vm_compute; reflexivity).
    apply (reached_by _ 1 2 4 3 [4; 5; 8; 7] H); vm_compute; reflexivity.
  - assert (X : forall c, reached (snd corner_mesh) 1 c -> exists ns, quad_nodes (snd corner_mesh) c ns) by (intros c H; destruct H as [|a b e ns _ _ _ Q]; [exists [0; 1; 4; 3]; apply quadb_ok; vm_compute; reflexivity|exists ns; exact Q]).
    intros H. destruct (X 0 H) as (ns & Q & L). assert (E : option_map (@length nat) (nth_error (faces_nodes (snd corner_mesh)) 0) = Some 3) by (vm_compute; reflexivity). rewrite Q in E. cbn [option_map] in E. congruence.
Qed.
(** A triangle as the start, and a point outside the nearest face *)
Lemma corner_errors : convert angle_order shoelace_sign (constructed corner_nodes corner_edges) (here 0) inside_it None = Throw AlgorithmErr /\
  convert angle_order shoelace_sign (constructed corner_nodes corner_edges) (here 1) (fun _ => false) None = Throw AlgorithmErr.
Proof. split; vm_compute; reflexivity. Qed.

(** *** Two nodes at one position *)
Definition twin_nodes : list point :=
  [pt (-2) 0; pt 0 0; pt 2 0; pt (-2) (-2); pt 0 (-2); pt 2 (-2); pt (-1) 2; pt (-3) 3; pt 1 2; pt 3 3; pt (-3) 7; pt 1 5; pt 3 7; pt (-1) 6].
Definition twin_edges : list edge :=
  [e_ 0 1; e_ 1 2; e_ 3 4; e_ 4 5; e_ 3 0; e_ 4 1; e_ 5 2; e_ 1 6; e_ 6 7; e_ 7 0; e_ 1 8; e_ 8 9; e_ 9 2; e_ 6 9; e_ 8 7; e_ 8 11; e_ 11 10; e_ 10 7; e_ 9 12; e_ 12 13; e_ 13 6].
Definition twin_mesh := searched twin_nodes twin_edges.
Definition same_point (p q : point) : bool := SFeqb (px p) (px q) && SFeqb (py p) (py q).
Definition place_in (r : outcome (option (list bool * conversion))) (n : nat) : option (Z * Z) := match r with Ok (Some (_, s)) => grid_pos s n | _ => None end.
Definition visited_in (r : outcome (option (list bool * conversion))) : list nat := match r with Ok (Some (v, _)) => cells_of v | _ => [] end.
Lemma twin_result : convertible twin_nodes twin_edges 0 [0; 1; 6; 7] /\ no_bare_edges (fst twin_mesh) (snd twin_mesh) /\ lists_all (fst twin_mesh) /\
  place_in (front (fst twin_mesh) (snd twin_mesh) 0 (fresh None)) 6 = Some (1, 0)%Z /\ place_in (front (fst twin_mesh) (snd twin_mesh) 0 (fresh None)) 8 = Some (1, 0)%Z /\
  nth_error (m_nodes (fst twin_mesh)) 6 = Some (pt (-1) 2) /\
  option_map (fun rows => existsb (existsb (same_point (pt (-1) 2))) rows)
    (points_of (convert angle_order shoelace_sign (constructed twin_nodes twin_edges) (here 0) inside_it None)) = Some false.
Proof.
  split; [apply convertible_ok; vm_compute; reflexivity|]. split; [apply no_bareb_ok; vm_compute; reflexivity|]. split; [apply lists_allb_ok; vm_compute; reflexivity|].
  split; [vm_compute; reflexivity|]. split; [vm_compute; reflexivity|]. split; vm_compute; reflexivity.
Qed.

(** *** An edge without face at the second of two cells *)
Definition hanging_nodes : list point := [pt 0 0; pt 2 0; pt 4 0; pt 0 2; pt 2 2; pt 4 2; pt 6 0].
Definition hanging_edges_list : list edge := [e_ 0 1; e_ 1 2; e_ 3 4; e_ 4 5; e_ 0 3; e_ 1 4; e_ 2 5; e_ 2 6].
Lemma hanging_result : convertible hanging_nodes hanging_edges_list 0 [0; 1; 4; 3] /\
  convert angle_order shoelace_sign (constructed hanging_nodes hanging_edges_list) (here 0) inside_it None = UB.
Proof. split; [apply convertible_ok; vm_compute; reflexivity|vm_compute; reflexivity]. Qed.

(** *** The second conversion with the same converter finds fewer cells *)
Definition after_first (start : nat) : growing :=
  match compute (fst corner_mesh) (snd corner_mesh) start inside_it (fresh None) with Ok (Some (_, g)) => g | _ => fresh None end.
Lemma reuse_result : visited_in (front (fst corner_mesh) (snd corner_mesh) 2 (fresh None)) = [1; 2; 3; 4] /\ visited_in (front (fst corner_mesh) (snd corner_mesh) 2 (after_first 1)) = [1; 2].
Proof. split; vm_compute; reflexivity. Qed.

(** *** The column that is taken for missing: the state after 998 cells to the left, at the last two of a row of 1000 cells *)
Definition row_nodes : list point := [pt 0 0; pt 1 0; pt 2 0; pt 0 1; pt 1 1; pt 2 1].
Definition row_edges : list edge := [e_ 0 1; e_ 1 2; e_ 3 4; e_ 4 5; e_ 0 3; e_ 1 4; e_ 2 5].
Definition row_mesh := searched row_nodes row_edges.
Definition far_state : conversion :=
  Conversion [-999; -998; -997; -999; -998; -997]%Z [-999; 0; 0; -999; 1; 1]%Z
    (Growing (-3) (-1001) 3 3 (fun j i => if ((j =? 0) && (i =? -998))%Z then Some 1 else if ((j =? 0) && (i =? -997))%Z then Some 2 else if ((j =? 1) && (i =? -998))%Z then Some 4 else if ((j =? 1) && (i =? -997))%Z then Some 5 else None)).
Definition far_grown := grow (fst row_mesh) (snd row_mesh) 9 [1] [false; false] far_state.
Lemma far_result : faces_nodes (snd row_mesh) = [[0; 1; 4; 3]; [1; 2; 5; 4]] /\ unit_cellb (grid_pos far_state) [1; 2; 5; 4] = true /\
  visited_in far_grown = [0; 1] /\ place_in far_grown 0 = None /\ place_in far_grown 3 = None.
Proof. split; [vm_compute; reflexivity|]. split; [vm_compute; reflexivity|]. split; [vm_compute; reflexivity|]. split; vm_compute; reflexivity. Qed.

Lemma place_read r n p : place_in r n = Some p -> exists v s, r = Ok (Some (v, s)) /\ grid_pos s n = Some p.
Proof. destruct r as [[[v s]|]|e|]; try discriminate. cbn. eauto. Qed.
Lemma visited_read r n l : visited_in r = n :: l -> exists v s, r = Ok (Some (v, s)) /\ cells_of v = n :: l.
Proof. destruct r as [[[v s]|]|e|]; try discriminate. cbn. eauto. Qed.
Lemma points_read {B} (g : list (list point) -> B) r y : option_map g (points_of r) = Some y -> exists rows m, r = Ok (Some rows, m) /\ g rows = y.
Proof. destruct r as [[[rows|] m]|e|]; try discriminate. cbn. intros H. injection H as <-. eauto. Qed.
Lemma convert_mesh order clockwise m m' f nearest inside garbage rows m2 : m_nodes m <> [] -> administrate2d order clockwise m = Ok (m', f) -> num_faces f <> 0 ->
  convert order clockwise m nearest inside garbage = Ok (Some rows, m2) -> m2 = m'.
Proof. intros N E F H. rewrite (convert_read order clockwise m m' f nearest inside garbage N E F) in H. destruct (compute _ _ _ _ _) as [[[r g]|]|e|]; cbn in H; congruence. Qed.
Lemma absent (p : point) rows : same_point p p = true -> existsb (existsb (same_point p)) rows = false -> forall row, In row rows -> ~ In p row.
Proof.
  intros E X row Hr Hp. assert (Y : existsb (existsb (same_point p)) rows = true) by (apply existsb_exists; exists row; split; [exact Hr|]; apply existsb_exists; exists p; split; assumption). congruence.
Qed.
Lemma twin_refutes : exists m m' f start ns vis s a b p pa rows,
  well_indexed (m_nodes m) (m_edges m) /\ administrate2d angle_order shoelace_sign m = Ok (m', f) /\ no_bare_edges m' f /\ num_faces f < 999 /\ quad_nodes f start ns /\
  front m' f start (fresh None) = Ok (Some (vis, s)) /\ a <> b /\ grid_pos s a = Some p /\ grid_pos s b = Some p /\ In a ns /\ nth_error (m_nodes m') a = Some pa /\
  convert angle_order shoelace_sign m (fun _ _ => start) (fun _ => true) None = Ok (Some rows, m') /\ forall row, In row rows -> ~ In pa row.
Proof.
  destruct twin_result as ((W & N & E & L & Q) & B & _ & P6 & P8 & M6 & X). destruct (place_read _ _ _ P6) as (v & s & Ef & G6). rewrite Ef in P8. destruct (place_read _ _ _ P8) as (v' & s' & Ef' & G8). injection Ef' as <- <-.
  destruct (points_read _ _ _ X) as (rows & m2 & Ec & Y). pose proof (convert_mesh _ _ _ _ _ _ _ _ _ _ N E (some_face _ _ _ Q) Ec) as Em. rewrite Em in Ec.
  exists (constructed twin_nodes twin_edges), (fst twin_mesh), (snd twin_mesh), 0, [0; 1; 6; 7], v, s, 6, 8, (1, 0)%Z, (pt (-1) 2), rows.
  split; [exact W|]. split; [exact E|]. split; [exact B|]. split; [exact L|]. split; [exact Q|]. split; [exact Ef|]. split; [discriminate|]. split; [exact G6|]. split; [exact G8|]. split; [right; right; now left|]. split; [exact M6|].
  split; [exact Ec|]. apply absent; [vm_compute; reflexivity|exact Y].
Qed.
Lemma hanging_refutes : exists m m' f start ns, well_indexed (m_nodes m) (m_edges m) /\ administrate2d angle_order shoelace_sign m = Ok (m', f) /\ num_faces f < 999 /\ quad_nodes f start ns /\
  convert angle_order shoelace_sign m (fun _ _ => start) (fun _ => true) None = UB.
Proof.
  destruct hanging_result as ((W & N & E & L & Q) & X). exists (constructed hanging_nodes hanging_edges_list), (fst (searched hanging_nodes hanging_edges_list)), (snd (searched hanging_nodes hanging_edges_list)), 0, [0; 1; 4; 3]. auto.
Qed.
Lemma reuse_refutes : exists m f start start' ns rows g vis s vis' s' c, consistent m /\ usable m f /\ no_bare_edges m f /\ quad_nodes f start' ns /\
  compute m f start (fun _ => true) (fresh None) = Ok (Some (rows, g)) /\ front m f start' (fresh None) = Ok (Some (vis, s)) /\ front m f start' g = Ok (Some (vis', s')) /\
  nth_error vis c = Some true /\ nth_error vis' c <> Some true.
Proof.
  destruct corner_facts as ((W & N & E & L & Q) & B & _). destruct (search_ready angle_order angle_order_perm shoelace_sign _ _ _ W E (some_face _ _ _ Q)) as (C & A & U & P & _).
  destruct (compute_laid_out _ _ C A U P B L 1 [0; 1; 4; 3] inside_it None Q (fun _ => eq_refl)) as (rows & g & _ & _ & Ec & _).
  destruct reuse_result as (V1 & V2). assert (Ec' : compute (fst corner_mesh) (snd corner_mesh) 1 inside_it (fresh None) = Ok (Some (rows, g))) by exact Ec. unfold after_first in V2. rewrite Ec' in V2. destruct (visited_read _ _ _ V1) as (v & s & E2 & W2). destruct (visited_read _ _ _ V2) as (v' & s' & E3 & W3).
  exists (fst corner_mesh), (snd corner_mesh), 1, 2, [1; 2; 5; 4], rows, g, v, s, v', s', 3. split; [exact C|]. split; [exact U|]. split; [exact B|]. split; [apply quadb_ok; vm_compute; reflexivity|]. split; [exact Ec|]. split; [exact E2|]. split; [exact E3|]. split.
  - apply cells_in. rewrite W2. cbn. auto.
  - intros H. apply cells_in in H. rewrite W3 in H. cbn in H. intuition discriminate.
Qed.
Lemma far_places k p : grid_pos far_state k = Some p -> In k [1; 2; 5; 4].
Proof. destruct k as [|[|[|[|[|[|k]]]]]]; intros H; [discriminate|cbn; tauto|cbn; tauto|discriminate|cbn; tauto|cbn; tauto|]. unfold grid_pos in H. destruct k; discriminate. Qed.
Lemma far_refutes : exists m f s c ns vis' s' n, consistent m /\ usable m f /\ unit_cell (grid_pos s) ns /\ quad_nodes f c ns /\ (forall k p, grid_pos s k = Some p -> In k ns) /\
  grow m f 9 [c] [false; false] s = Ok (Some (vis', s')) /\ (forall q, q < 2 -> nth_error vis' q = Some true) /\ (exists q ms, q < 2 /\ quad_nodes f q ms /\ In n ms) /\ grid_pos s' n = None.
Proof.
  destruct far_result as (F & Un & V & P0 & _).
  assert (Cv : convertible row_nodes row_edges 1 [1; 2; 5; 4]) by (apply convertible_ok; vm_compute; reflexivity). destruct Cv as (W & N & E & L & Q).
  destruct (search_ready angle_order angle_order_perm shoelace_sign _ _ _ W E (some_face _ _ _ Q)) as (C & A & U & _ & _).
  destruct (visited_read _ _ _ V) as (v & s' & Eg & Wv). rewrite Eg in P0. cbn [place_in] in P0.
  exists (fst row_mesh), (snd row_mesh), far_state, 1, [1; 2; 5; 4], v, s', 0. split; [exact C|]. split; [exact U|]. split; [now apply unit_cellb_ok|]. split; [exact Q|]. split.
  - exact far_places.
  - split; [exact Eg|]. split; [|split; [exists 0, [0; 1; 4; 3]; split; [lia|]; split; [apply quadb_ok; vm_compute; reflexivity|now left]|exact P0]].
    intros q Hq. apply cells_in. rewrite Wv. destruct q as [|[|q]]; [now left|right; now left|lia].
Qed.
Lemma corner_convertible :
  let m := constructed corner_nodes corner_edges in let m' := fst corner_mesh in let f := snd corner_mesh in
  well_indexed (m_nodes m) (m_edges m) /\ m_nodes m <> [] /\ administrate2d angle_order shoelace_sign m = Ok (m', f) /\ no_bare_edges m' f /\ num_faces f < 999 /\ quad_nodes f 1 [0; 1; 4; 3] /\ few_common m' /\
  lists_all m' /\ gridded m' f (fun n => nth n corner_places None).
Proof. cbv zeta. destruct corner_facts as ((W & N & E & L & Q) & B & F & A & G). auto 10. Qed.
