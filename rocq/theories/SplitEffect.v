(** The edits made while splitting a row. *)
From Coq Require Import Permutation.
From Verif Require Import Base BaseLemmas FloatModel FloatProofs UndoModel UndoSpec UndoProofs ActionModel ActionSpec ActionProofs
  MeshModel MeshSpec MeshProofs MeshAdj MeshConstruct MeshUndo MeshEdits MeshEdits2 MeshFacts
  FaceModel FaceSpec FaceUseModel FaceUseSpec FaceUse SplitModel SplitSpec SplitProofs SplitMain.

Section Effect.
  Variable order : list point -> list edge -> nat -> list (option nat) -> list (option nat).
  Hypothesis order_perm : forall nodes edges n row, Permutation row (order nodes edges n row).
  Notation tree_ok := (recC (restore_leaf order) (commit_leaf order) mesh_le).
  Notation list_ok := (recC_all (restore_leaf order) (commit_leaf order) mesh_le).

  Definition grow (m : mesh) (ps : list point) (new : list (nat * nat)) : mesh :=
    Mesh (m_nodes m ++ ps) (m_edges m ++ map as_edge new) (m_nodesNumEdges m ++ repeat 0 (length ps)) (m_nodesEdges m ++ repeat [] (length ps)) (m_projection m).

  Lemma insert_node_table m p : consistent m -> exists m', m' = Mesh (m_nodes m ++ [p]) (m_edges m) (m_nodesNumEdges m ++ [0]) (m_nodesEdges m ++ [[]]) (m_projection m) /\
    insert_node order m p = Ok (length (m_nodes m), leaf (AddNodeA (length (m_nodes m)) p), m') /\ tree_ok (leaf (AddNodeA (length (m_nodes m)) p)) m m' /\ consistent m'.
  Proof.
    intros Hc. destruct (insert_node_ok order m p Hc) as (m' & H & _ & _ & _ & T & C). exists m'. split; [|auto]. revert H. unfold insert_node. pose proof (co_counts m Hc) as L1. pose proof (co_rows m Hc) as L2.
    rewrite !vresize_grow by lia. rewrite L1, L2. replace (S (length (m_nodes m)) - length (m_nodes m)) with 1 by lia. cbn [repeat commit_leaf]. unfold put_node, zero_count. cbn [m_nodes set_tables set_nodes].
    rewrite vset_snoc. cbn [bind m_nodesNumEdges set_nodes set_tables]. rewrite <- L1 at 1. rewrite vset_snoc. cbn [bind]. intros H. injection H as <-. reflexivity.
  Qed.

  Section Mesh.
    Variable m : mesh.
    Variable f : faces.
    Hypothesis Hc : consistent m.
    Hypothesis U : usable m f.
    Hypothesis D : distinct_edges f.
    Hypothesis E2 : two_ends m f.
    Local Notation N := (length (m_nodes m)).

    Definition grown (del : list nat) (new : list (nat * nat)) (s : splitting) : Prop :=
      s_mesh s = grow m (map (midpoint m) del) new /\ consistent (s_mesh s) /\ list_ok (s_acts s) m (s_mesh s) /\ s_delete s = del.

    Lemma link_ok del new s a b : s_mesh s = grow m del new -> consistent (s_mesh s) -> list_ok (s_acts s) m (s_mesh s) ->
      a < N + length del -> b < N + length del -> N <= a \/ N <= b ->
      exists s', link order s (Some a) (Some b) = Ok s' /\ s_mesh s' = grow m del (new ++ [(a, b)]) /\ consistent (s_mesh s') /\ list_ok (s_acts s') m (s_mesh s') /\ s_delete s' = s_delete s.
    Proof.
      intros Em C L Ha Hb Hnew. unfold link. assert (Ln : length (m_nodes (s_mesh s)) = N + length del) by (rewrite Em; cbn; now rewrite app_length).
      assert (X : exists m', connect_nodes order (s_mesh s) (Some a) (Some b) = Ok (Some (length (m_edges (s_mesh s)), leaf (AddEdgeA (length (m_edges (s_mesh s))) (Some a, Some b)), m')) /\
        m' = set_edges (s_mesh s) (m_edges (s_mesh s) ++ [(Some a, Some b)]) /\ tree_ok (leaf (AddEdgeA (length (m_edges (s_mesh s))) (Some a, Some b))) (s_mesh s) m' /\ consistent m').
      { destruct (connect_nodes_ok order (s_mesh s) a b C) as [H|H]; [lia|lia| |exact H]. exfalso. unfold connect_nodes in H.
        destruct (find_edge_ok (s_mesh s) a b C ltac:(lia)) as (r & Hr & Hs). rewrite Hr in H. cbn [bind] in H. destruct r as [e|]; [|apply bind_ok_inv in H as ([x y] & _ & H); discriminate].
        destruct Hs as (H1 & H2 & H3). pose proof (co_counts m Hc) as L1. pose proof (co_rows m Hc) as L2. destruct (Nat.lt_ge_cases a N) as [A|A].
        - destruct Hnew as [Hn|Hn]; [lia|]. assert (Hin : In (Some e) (row_of m a)).
          { replace (row_of m a) with (row_of (s_mesh s) a) by (rewrite Em; unfold row_of; cbn; rewrite app_nth1 by lia; reflexivity). eapply In_firstn; eauto. }
          destruct (co_listed m Hc a (Some e) Hin) as (e' & X & He). injection X as <-.
          assert (G : ge (s_mesh s) e = ge m e) by (rewrite Em; unfold ge; cbn; rewrite app_nth1 by lia; reflexivity). rewrite G in H3.
          assert (ends_in (ge m e) b) by (unfold other_node in H3; destruct (eq_idx _ _); [right|left]; exact H3).
          assert (b < N) by (apply (co_ends m Hc (ge m e)); [unfold ge; apply nth_In; exact He|assumption]). lia.
        - assert (Z : row_of (s_mesh s) a = []) by (rewrite Em; unfold row_of; cbn; rewrite app_nth2 by lia; apply nth_repeat). rewrite Z, firstn_nil in H1. easy. }
      destruct X as (m' & -> & E' & T & C'). cbn [bind compound_add act_state leaf]. eexists. split; [reflexivity|]. cbn [s_mesh s_acts s_delete]. split.
      { rewrite E', Em. unfold grow, set_edges. cbn. rewrite map_app, app_assoc. reflexivity. }
      split; [exact C'|]. split; [eapply list_snoc; eauto|reflexivity].
    Qed.
    Lemma grown_link del new s a b : grown del new s -> a < N + length del -> b < N + length del -> N <= a \/ N <= b ->
      exists s', link order s (Some a) (Some b) = Ok s' /\ grown del (new ++ [(a, b)]) s'.
    Proof.
      intros (H1 & H2 & H3 & H4) Ha Hb Hn. destruct (link_ok (map (midpoint m) del) new s a b H1 H2 H3) as (s' & L & G1 & G2 & G3 & G4); rewrite ?map_length; auto.
      exists s'. split; [exact L|]. split; [exact G1|split; [exact G2|split; [exact G3|congruence]]].
    Qed.
    Lemma grown_edge del new s c : grown del new s -> c < length (m_edges m) -> get_edge (s_mesh s) (Some c) = Ok (edge_at m c).
    Proof.
      intros (H & _) Hl. unfold get_edge. rewrite H. cbn [grow m_edges]. rewrite nth_error_app1 by exact Hl. unfold edge_at. now rewrite (nth_error_nth' _ missing_edge Hl).
    Qed.
    Lemma grown_split del new s c a b : grown del new s -> c < length (m_edges m) -> edge_at m c = (Some a, Some b) ->
      exists s', split_edge order s (Some c) = Ok (N + length del, s') /\ grown (del ++ [c]) (new ++ [(a, N + length del); (N + length del, b)]) s'.
    Proof.
      intros G Hl Ee. unfold split_edge. rewrite (grown_edge _ _ _ _ G Hl), Ee. cbn [bind fst snd].
      assert (Hab : a < N /\ b < N) by (split; apply (co_ends m Hc (edge_at m c)); try (unfold edge_at; apply nth_In; exact Hl); rewrite Ee; cbn; [left|right]; reflexivity).
      pose proof G as (H1 & H2 & H3 & H4).
      assert (Nd : forall n, n < N -> node_at (s_mesh s) (Some n) = Ok (nth n (m_nodes m) missing_point)).
      { intros n Hn. unfold node_at. rewrite H1. cbn. rewrite nth_error_app1 by exact Hn. now rewrite (nth_error_nth' _ missing_point Hn). }
      rewrite !Nd by tauto. cbn [bind]. replace (middle (nth a (m_nodes m) missing_point) (nth b (m_nodes m) missing_point)) with (midpoint m c) by (unfold midpoint; now rewrite Ee).
      destruct (insert_node_table (s_mesh s) (midpoint m c) H2) as (m' & Em & -> & T & C). cbn [bind compound_add act_state leaf].
      assert (Ln : length (m_nodes (s_mesh s)) = N + length del) by (rewrite H1; cbn; now rewrite app_length, map_length).
      assert (G1 : grown (del ++ [c]) new (Splitting m' (s_acts s ++ [leaf (AddNodeA (length (m_nodes (s_mesh s))) (midpoint m c))]) (del ++ [c]))).
      { split; [|split; [exact C|split; [eapply list_snoc; eauto|reflexivity]]]. cbn [s_mesh]. rewrite Em, H1. unfold grow. cbn [m_nodes m_edges m_nodesNumEdges m_nodesEdges m_projection].
        rewrite map_app, !app_length, !repeat_app, !app_assoc. reflexivity. }
      rewrite Ln. clear T. destruct G1 as (K1 & K2 & K3 & _). cbn [s_mesh s_acts] in K1, K2, K3. unfold leaf in K3. rewrite Ln in K3.
      destruct (link_ok (map (midpoint m) (del ++ [c])) new (Splitting m' (s_acts s ++ [leaf (AddNodeA (N + length del) (midpoint m c))]) (s_delete s)) a (N + length del) K1 K2 K3)
        as (s1 & -> & A1 & A2 & A3 & A4); [rewrite map_length, app_length; cbn; lia..|lia|]. cbn [bind].
      destruct (link_ok (map (midpoint m) (del ++ [c])) (new ++ [(a, N + length del)]) s1 (N + length del) b A1 A2 A3)
        as (s2 & -> & B1 & B2 & B3 & B4); [rewrite map_length, app_length; cbn; lia..|lia|]. cbn [bind].
      eexists. split; [reflexivity|]. split; [|split; [exact B2|split; [exact B3|]]]; cbn [s_mesh s_delete].
      - rewrite B1, <- app_assoc. reflexivity.
      - rewrite B4, A4. cbn [s_delete]. now rewrite H4.
    Qed.

    (** *** One cell *)
    Definition open_to (x : option nat) : Prop := match x with None => True | Some j => four_edges f j end.
    Lemma quad_of x : (forall j, x = Some j -> j < num_faces f) -> exists q, is_quad f x = Ok q /\ (q = true <-> exists j, x = Some j /\ four_edges f j).
    Proof.
      destruct x as [j|]; [intros H|intros _].
      - destruct (is_quad_ok m f U j (H j eq_refl)) as (q & -> & Hq). exists q. split; [reflexivity|]. rewrite Hq. split; [eauto|]. intros (k & X & F). injection X as <-. exact F.
      - exists false. split; [reflexivity|]. split; [discriminate|]. intros (j & X & _). discriminate.
    Qed.
    Lemma beyond_lt c i x : beyond f c i x -> forall j, x = Some j -> j < num_faces f.
    Proof. intros B j ->. apply (with_lt m f U c), B. Qed.
    Lemma previous_ok c i x : In i (faces_with f c) -> beyond f c i x -> previous_element (nth_error (faces_with f c) 0, nth_error (faces_with f c) 1) i = Ok x.
    Proof.
      intros Hi B. destruct (with_cases m f U c (proj2 (with_lt m f U c i Hi))) as [E|[(a & E)|(a & b & E)]]; unfold beyond in B; rewrite E in *; cbn in Hi |- *.
      - easy.
      - destruct Hi as [<-|[]]. rewrite Nat.eqb_refl. destruct x as [j|]; [|reflexivity]. destruct B as (N & [<-|[]]). now contradiction N.
      - destruct x as [j|].
        + destruct B as (Nj & Hj). destruct Hi as [<-|[<-|[]]], Hj as [<-|[<-|[]]]; try (now contradiction Nj).
          * rewrite (proj2 (Nat.leb_le _ _)) by lia. do 2 f_equal. lia.
          * rewrite (proj2 (Nat.leb_le _ _)) by lia. do 2 f_equal. lia.
        + discriminate.
    Qed.
    Lemma grown_opposite del new s i c o : grown del new s -> opposite_in f i c o -> opposite_edge (s_mesh s) f (Some i) (Some c) = Ok (Some o).
    Proof.
      intros (G & _) O. destruct (opposite_with m f U _ _ _ O) as (W & _ & F). destruct (opposite_ok m f U i c W F) as (o' & X & O'). rewrite (opposite_unique f D _ _ _ _ O O'). rewrite <- X.
      cbn [opposite_edge edge_index]. destruct (with_lt m f U c i W) as (_ & Hl). rewrite G. cbn [grow m_edges]. rewrite (proj2 (Nat.leb_gt _ c)) by (rewrite app_length; lia). rewrite (proj2 (Nat.leb_gt _ c)) by lia. reflexivity.
    Qed.
    Lemma ends_of i c o : opposite_in f i c o -> (exists a b, edge_at m c = (Some a, Some b)) /\ c < length (m_edges m).
    Proof.
      intros O. split; [|apply (with_lt m f U c i), (opposite_with m f U _ _ _ O)]. destruct O as (es & k & E & _ & K & _). apply (E2 es); eapply nth_error_In; eauto.
    Qed.
    Lemma ends_lt c a b : c < length (m_edges m) -> edge_at m c = (Some a, Some b) -> a < N /\ b < N.
    Proof. intros Hl Ee. split; apply (co_ends m Hc (edge_at m c)); try (unfold edge_at; apply nth_In; exact Hl); rewrite Ee; cbn; [left|right]; reflexivity. Qed.
    Lemma grown_cut del new s i c o : grown del new s -> opposite_in f i c o ->
      exists s', split_edge order s (Some c) = Ok (N + length del, s') /\ grown (del ++ [c]) (new ++ to_ends m c (N + length del)) s'.
    Proof.
      intros G O. destruct (ends_of _ _ _ O) as ((a & b & E) & Hl). destruct (grown_split del new s c a b G Hl E) as (s' & H1 & H2). exists s'. split; [exact H1|]. unfold to_ends. now rewrite E.
    Qed.
    Lemma grown_ends del new s i c o v : grown del new s -> opposite_in f i c o -> N <= v -> v < N + length del ->
      exists a b s1 s2, edge_at m c = (Some a, Some b) /\ link order s (Some a) (Some v) = Ok s1 /\ link order s1 (Some v) (Some b) = Ok s2 /\ grown del (new ++ to_ends m c v) s2.
    Proof.
      intros G O V1 V2. destruct (ends_of _ _ _ O) as ((a & b & E) & Hl). destruct (ends_lt c a b Hl E) as (Ha & Hb). exists a, b.
      destruct (grown_link del new s a v G ltac:(lia) V2 (or_intror V1)) as (s1 & L1 & G1). destruct (grown_link del _ s1 v b G1 V2 ltac:(lia) (or_introl V1)) as (s2 & L2 & G2).
      exists s1, s2. repeat split; auto; try apply G2. destruct G2 as (X & _). rewrite X, <- app_assoc. unfold to_ends. rewrite E. reflexivity.
    Qed.

    Section Cell.
      Variables i c o : nat.
      Variables x y : option nat.
      Hypothesis O : opposite_in f i c o.
      Hypothesis Bx : beyond f c i x.
      Hypothesis By : beyond f o i y.
      Lemma cell_start del new s nn : grown del new s -> exists qx qy,
        (qx = true <-> exists j, x = Some j /\ four_edges f j) /\ (qy = true <-> open_to y) /\
        split_element order f i c nn s =
        match x with
        | None =>
            if qy then
              let! (n1, s) := split_edge order s (Some c) in let! (n2, s) := split_edge order s (Some o) in let! s := link order s (Some n1) (Some n2) in Ok (Some n2, s)
            else
              let! (n1, s) := split_edge order s (Some c) in
              let! s := link order s (fst (edge_at m o)) (Some n1) in let! s := link order s (Some n1) (snd (edge_at m o)) in Ok (None, s)
        | Some _ =>
            if qx then
              if qy then let! (n2, s) := split_edge order s (Some o) in let! s := link order s nn (Some n2) in Ok (Some n2, s)
              else let! s := link order s (fst (edge_at m o)) nn in let! s := link order s nn (snd (edge_at m o)) in Ok (None, s)
            else if qy then
              let! (n2, s) := split_edge order s (Some o) in
              let! s := link order s (fst (edge_at m c)) (Some n2) in let! s := link order s (Some n2) (snd (edge_at m c)) in Ok (Some n2, s)
            else Ok (nn, s)
        end.
      Proof.
        intros G. destruct (opposite_with m f U _ _ _ O) as (W & Wo & F). destruct (quad_of x (beyond_lt c i x Bx)) as (qx & Ex & Hx). destruct (quad_of y (beyond_lt o i y By)) as (qy & Ey & Hy).
        exists qx, (match y with None => true | Some _ => qy end). split; [exact Hx|]. split.
        { destruct y; cbn; [|split; auto]. rewrite Hy. split; [intros (j & X & Fj); injection X as <-; exact Fj|eauto]. }
        unfold split_element. rewrite (grown_edge del new s c G (proj2 (with_lt m f U c i W))). cbn [bind]. rewrite (edge_faces_ok m f U c (proj2 (with_lt m f U c i W))). cbn [bind].
        rewrite (previous_ok c i x W Bx). cbn [bind].
        assert (Nx : next_element (s_mesh s) f i c = Ok y).
        { unfold next_element. destruct (is_quad_ok m f U i (proj1 (with_lt m f U c i W))) as (q & -> & Hq). cbn [bind]. rewrite (proj2 Hq F). cbn [negb].
          rewrite (grown_opposite del new s i c o G O). cbn [bind vget_idx]. rewrite (edge_faces_ok m f U o (proj2 (with_lt m f U o i Wo))). cbn [bind]. f_equal.
          apply (beyond_same m f U o i); auto. now apply (across_ok m f U). }
        rewrite Nx. cbn [bind]. rewrite Ey. cbn [bind]. rewrite (grown_opposite del new s i c o G O). cbn [bind].
        rewrite (grown_edge del new s o G (proj2 (with_lt m f U o i Wo))). cbn [bind]. destruct x as [j|]; [rewrite Ex; cbn [bind]; reflexivity|reflexivity].
      Qed.
      Local Notation k del := (N + length del).
      Lemma cell_both del new s nn : grown del new s -> x = None -> open_to y ->
        exists s', split_element order f i c nn s = Ok (Some (k del + 1), s') /\ grown ((del ++ [c]) ++ [o]) (new ++ (to_ends m c (k del) ++ to_ends m o (k del + 1)) ++ [(k del, k del + 1)]) s'.
      Proof.
        intros G Ex Oy. destruct (cell_start del new s nn G) as (qx & qy & Hx & Hy & ->). rewrite Ex. rewrite (proj2 Hy Oy).
        destruct (grown_cut del new s i c o G O) as (s1 & -> & G1). cbn [bind]. destruct (grown_cut _ _ s1 i o c G1 (opposite_sym f _ _ _ O)) as (s2 & -> & G2). cbn [bind].
        rewrite app_length in *. cbn [length] in *. rewrite Nat.add_assoc in *. destruct (grown_link _ _ s2 (k del) (k del + 1) G2) as (s3 & -> & G3); [rewrite !app_length; cbn; lia..|lia|].
        cbn [bind]. exists s3. split; [reflexivity|]. rewrite <- !app_assoc in *. exact G3.
      Qed.
      Lemma cell_first del new s nn : grown del new s -> x = None -> ~ open_to y ->
        exists s', split_element order f i c nn s = Ok (None, s') /\ grown (del ++ [c]) (new ++ to_ends m c (k del) ++ to_ends m o (k del)) s'.
      Proof.
        intros G Ex Oy. destruct (cell_start del new s nn G) as (qx & qy & Hx & Hy & ->). rewrite Ex. destruct qy; [now contradiction Oy; apply Hy|].
        destruct (grown_cut del new s i c o G O) as (s1 & -> & G1). cbn [bind]. destruct (grown_ends _ _ s1 i o c (k del) G1 (opposite_sym f _ _ _ O)) as (a & b & s2 & s3 & E & L1 & L2 & G3); [lia|rewrite app_length; cbn; lia|].
        rewrite E. cbn [fst snd]. rewrite L1. cbn [bind]. rewrite L2. cbn [bind]. exists s3. split; [reflexivity|]. now rewrite app_assoc.
      Qed.
      Lemma cell_on del new s v j : grown del new s -> x = Some j -> four_edges f j -> N <= v -> v < k del -> open_to y ->
        exists s', split_element order f i c (Some v) s = Ok (Some (k del), s') /\ grown (del ++ [o]) (new ++ to_ends m o (k del) ++ [(v, k del)]) s'.
      Proof.
        intros G Ex Fj V1 V2 Oy. destruct (cell_start del new s (Some v) G) as (qx & qy & Hx & Hy & ->). rewrite Ex. rewrite (proj2 Hy Oy), (proj2 Hx) by eauto.
        destruct (grown_cut del new s i o c G (opposite_sym f _ _ _ O)) as (s1 & -> & G1). cbn [bind].
        destruct (grown_link _ _ s1 v (k del) G1) as (s2 & -> & G2); [rewrite app_length; cbn; lia..|lia|]. cbn [bind]. exists s2. split; [reflexivity|]. now rewrite app_assoc.
      Qed.
      Lemma cell_last del new s v j : grown del new s -> x = Some j -> four_edges f j -> N <= v -> v < k del -> ~ open_to y ->
        exists s', split_element order f i c (Some v) s = Ok (None, s') /\ grown del (new ++ to_ends m o v) s'.
      Proof.
        intros G Ex Fj V1 V2 Oy. destruct (cell_start del new s (Some v) G) as (qx & qy & Hx & Hy & ->). rewrite Ex. rewrite (proj2 Hx) by eauto. destruct qy; [now contradiction Oy; apply Hy|].
        destruct (grown_ends _ _ s i o c v G (opposite_sym f _ _ _ O) V1 V2) as (a & b & s2 & s3 & E & L1 & L2 & G3). rewrite E. cbn [fst snd]. rewrite L1. cbn [bind]. rewrite L2. cbn [bind]. eauto.
      Qed.
      Lemma cell_second del new s nn j : grown del new s -> x = Some j -> ~ four_edges f j -> open_to y ->
        exists s', split_element order f i c nn s = Ok (Some (k del), s') /\ grown (del ++ [o]) (new ++ to_ends m o (k del) ++ to_ends m c (k del)) s'.
      Proof.
        intros G Ex Fj Oy. destruct (cell_start del new s nn G) as (qx & qy & Hx & Hy & ->). rewrite Ex. rewrite (proj2 Hy Oy).
        destruct qx; [destruct (proj1 Hx eq_refl) as (j' & X & Fx); rewrite Ex in X; injection X as ->; now contradiction Fj|].
        destruct (grown_cut del new s i o c G (opposite_sym f _ _ _ O)) as (s1 & -> & G1). cbn [bind].
        destruct (grown_ends _ _ s1 i c o (k del) G1 O) as (a & b & s2 & s3 & E & L1 & L2 & G3); [lia|rewrite app_length; cbn; lia|].
        rewrite E. cbn [fst snd]. rewrite L1. cbn [bind]. rewrite L2. cbn [bind]. exists s3. split; [reflexivity|]. now rewrite app_assoc.
      Qed.
      Lemma cell_none del new s nn j : grown del new s -> x = Some j -> ~ four_edges f j -> ~ open_to y -> split_element order f i c nn s = Ok (nn, s).
      Proof.
        intros G Ex Fj Oy. destruct (cell_start del new s nn G) as (qx & qy & Hx & Hy & ->). rewrite Ex.
        destruct qx; [destruct (proj1 Hx eq_refl) as (j' & X & Fx); rewrite Ex in X; injection X as ->; now contradiction Fj|]. destruct qy; [now contradiction Oy; apply Hy|reflexivity].
      Qed.
      Lemma cell_ring del new s : grown del new s ->
        exists s', split_first order f i c s = Ok (k del, k del + 1, s') /\ grown ((del ++ [c]) ++ [o]) (new ++ (to_ends m c (k del) ++ to_ends m o (k del + 1)) ++ [(k del, k del + 1)]) s'.
      Proof.
        intros G. unfold split_first. rewrite (grown_opposite del new s i c o G O). cbn [bind].
        destruct (grown_cut del new s i c o G O) as (s1 & -> & G1). cbn [bind]. destruct (grown_cut _ _ s1 i o c G1 (opposite_sym f _ _ _ O)) as (s2 & -> & G2). cbn [bind].
        rewrite app_length in *. cbn [length] in *. rewrite Nat.add_assoc in *. destruct (grown_link _ _ s2 (k del) (k del + 1) G2) as (s3 & -> & G3); [rewrite !app_length; cbn; lia..|lia|].
        cbn [bind]. exists s3. split; [reflexivity|]. rewrite <- !app_assoc in *. exact G3.
      Qed.
    End Cell.
  End Mesh.
End Effect.
