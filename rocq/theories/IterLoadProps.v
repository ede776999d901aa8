(** Theorems that the public iterators give what the loaders take (C171). *)
From Verif Require Import Base BaseLemmas Num GeomSpec ByteModel MeshModel PlyModel StlModel IoModel IoSpec ReaderModel IterModel IterSpec PartsModel.
From Verif Require IterProps IoProps.

(** A loop over an iterator collects what it gives. *)
Lemma gives_load {S E A} (next : S -> option (outcome E A) * S) : forall k s acc l r, load_loop next k s acc = Some (l, r) ->
  exists items, l = acc ++ items /\ gives next s items r.
Proof.
  induction k as [|k IH]; intros s acc l r H; [discriminate|]. cbn [load_loop] in H. destruct (next s) as [[[a|e|]|] s'] eqn:N.
  - destruct (IH _ _ _ _ H) as (items & -> & G). exists (a :: items). rewrite <- app_assoc. split; [reflexivity|]. eapply gives_item; eassumption.
  - injection H as <- <-. exists []. rewrite app_nil_r. split; [reflexivity|]. eapply gives_err. rewrite N. reflexivity.
  - injection H as <- <-. exists []. rewrite app_nil_r. split; [reflexivity|]. apply gives_panic. rewrite N. reflexivity.
  - injection H as <- <-. exists []. rewrite app_nil_r. split; [reflexivity|]. apply gives_end. rewrite N. reflexivity.
Qed.
Lemma gives_map {S T E A B} (next : S -> option (outcome E A) * S) (next' : T -> option (outcome E B) * T) (f : A -> B) (g : S -> T) :
  (forall s, next' (g s) = (as_item f (fst (next s)), g (snd (next s)))) -> forall s l r, gives next s l r -> gives next' (g s) (map f l) r.
Proof.
  intros H s l r G. induction G as [s N|s e N|s N|s s' a l r N G IH]; cbn [map].
  - apply gives_end. rewrite H. cbn [fst]. rewrite N. reflexivity.
  - eapply gives_err. rewrite H. cbn [fst]. rewrite N. reflexivity.
  - apply gives_panic. rewrite H. cbn [fst]. rewrite N. reflexivity.
  - eapply gives_item; [|exact IH]. rewrite H, N. reflexivity.
Qed.

(** Points in .ply files: the number of vertices of the header to reserve, then the points that are loaded, then the same end. *)
Theorem C171_ply_points_loaded : forall ft k r ps x, load_ply_points_from ft k r = Some (ps, x) ->
  match ply_points_iterator r with
  | Err e => ps = [] /\ x = Err e
  | Panic => ps = [] /\ x = Panic
  | Ok s => exists n, fst (ply_points_next ft s) = Some (Ok (Reserve n)) /\
      (reserve 24 n = true -> gives (ply_points_next ft) s (Reserve n :: map Data ps) x) /\ (reserve 24 n = false -> ps = [] /\ x = Panic)
  end.
Proof.
  intros ft k r ps x. unfold load_ply_points_from, ply_points_iterator. destruct (load_header_from _ _ _ _) as [[[[fmt v f] r'] i]|e|].
  - intros H. exists (vd_count v). split; [destruct fmt; reflexivity|]. destruct (reserve 24 (vd_count v)); [|split; intros R; [discriminate|injection H as <- <-; auto]].
    split; [intros _|discriminate]. destruct fmt; (eapply gives_item; [reflexivity|]); destruct (gives_load _ _ _ _ _ _ H) as (items & -> & G); cbn [app].
    + refine (gives_map _ (ply_points_next ft) Data (fun s => PlyPointsAscii None v s) _ _ _ _ G). intros s. cbn [ply_points_next]. destruct (ascii_points_next_from ft v s). reflexivity.
    + refine (gives_map _ (ply_points_next ft) Data (fun s => PlyPointsBinary None _ v s) _ _ _ _ G). intros s. cbn [ply_points_next]. destruct (simple_next _ s). reflexivity.
  - intros H. injection H as <- <-. auto.
  - intros H. injection H as <- <-. auto.
Qed.
Print Assumptions C171_ply_points_loaded.


Section MeshLoop.
Context {S : Type} (next : S -> option (outcome (with_line PlyError) mesh_item) * S).
Notation body := (fun m x => let (m, r) := add_item m x in (m, simple r)).
Notation oks l := (map (fun a => Some (Ok a)) l).
Lemma mesh_loop_gives : forall k s m0 m x, fold_loop next body k s m0 = Some (m, x) ->
  exists items, mesh_into m = (pc m0 ++ points_of items, topology m0 ++ indices_of items) /\
    (gives next s items x \/
     x = Err (WNone PlyInvalidMeshIndices) /\ exists f, answers next (Datatypes.S (length items)) s = oks (items ++ [MFace f])).
Proof.
  induction k as [|k IH]; intros s m0 m x H; [discriminate|]. cbn [fold_loop] in H. destruct (next s) as [[[a|e|]|] s'] eqn:N.
  2-4: injection H as <- <-; exists []; cbn [points_of indices_of flat_map]; rewrite !app_nil_r; split; [reflexivity|left].
  2: eapply gives_err; rewrite N; reflexivity. 2: apply gives_panic; rewrite N; reflexivity. 2: apply gives_end; rewrite N; reflexivity.
  assert (C : (exists m1, add_item m0 a = (m1, Ok tt) /\ pc m1 = pc m0 ++ points_of [a] /\ topology m1 = topology m0 ++ indices_of [a]) \/
     (add_item m0 a = (m0, Err PlyInvalidMeshIndices) /\ exists f, a = MFace f)).
  { destruct a as [p|[[a b] c]]; cbn [add_item points_of indices_of flat_map app].
    - left. eexists. split; [reflexivity|]. cbn. rewrite app_nil_r. auto.
    - unfold try_add_connection. destruct (_ || _ || _); [right; eauto|]. destruct (_ || _ || _); [right; eauto|]. left. eexists. split; [reflexivity|]. cbn [pc topology]. unfold points_of, indices_of. cbn [flat_map app]. rewrite <- !app_assoc, app_nil_r. auto. }
  destruct C as [(m1 & A & P & T)|(A & f & ->)]; rewrite A in H; cbn [simple] in H.
  - destruct (IH _ _ _ _ H) as (items & I & G). exists (a :: items). split.
    { rewrite I, P, T, <- !app_assoc. unfold points_of, indices_of. cbn [flat_map]. rewrite !app_nil_r. reflexivity. }
    destruct G as [G|(X & f & G)]; [left; eapply gives_item; eassumption|right]. split; [exact X|]. exists f. cbn [length]. cbn [answers]. rewrite N. cbn [app map]. f_equal. exact G.
  - injection H as <- <-. exists []. cbn [points_of indices_of flat_map]. rewrite !app_nil_r. split; [reflexivity|]. right. split; [reflexivity|]. exists f. cbn [length answers]. rewrite N. reflexivity.
Qed.
End MeshLoop.
Lemma answers_map {S T E A B} (next : S -> option (outcome E A) * S) (next' : T -> option (outcome E B) * T) (f : A -> B) (g : S -> T) :
  (forall s, next' (g s) = (as_item f (fst (next s)), g (snd (next s)))) -> forall n s, answers next' n (g s) = map (as_item f) (answers next n s).
Proof. intros H. induction n as [|n IH]; intros s; [reflexivity|]. cbn [answers]. rewrite H. destruct (next s) as [x s']. cbn [fst snd map]. rewrite IH. reflexivity. Qed.

(** Meshes in .ply files: the numbers to reserve, then the points and faces of the loaded mesh, then the same end, unless loading ends early at a face with
    invalid indices, which the iterator gives. *)
Theorem C171_ply_mesh_loaded : forall ft k r m x, load_ply_mesh_from ft k r = Some (m, x) ->
  match ply_mesh_iterator r with
  | Err e => m = mesh_empty /\ x = Err e
  | Panic => m = mesh_empty /\ x = Panic
  | Ok s => exists d n, fst (ply_mesh_next ft s) = Some (Ok (PReserve d n)) /\
      (reserve 24 d = true /\ reserve 8 (w64 (3 * n)) = true ->
       exists items, mesh_into m = (points_of items, indices_of items) /\
         (gives (ply_mesh_next ft) s (PReserve d n :: map PItem items) x \/
          x = Err (WNone PlyInvalidMeshIndices) /\ exists f,
            answers (ply_mesh_next ft) (2 + length items) s = map (fun a => Some (Ok a)) (PReserve d n :: map PItem items ++ [PItem (MFace f)]))) /\
      (reserve 24 d = false \/ reserve 8 (w64 (3 * n)) = false -> m = mesh_empty /\ x = Panic)
  end.
Proof.
  intros ft k r m x. unfold load_ply_mesh_from, ply_mesh_iterator. destruct (load_header_from _ _ _ _) as [[[[fmt v [f|]] r'] i]|e|].
  2-4: intros H; injection H as <- <-; auto.
  intros H. exists (vd_count v), (fd_count f). split; [destruct fmt; reflexivity|].
  destruct (reserve 24 (vd_count v)), (reserve 8 (w64 (3 * fd_count f))); cbn [andb] in H.
  2-4: split; [intros [R1 R2]; discriminate|intros _; injection H as <- <-; auto].
  split; [intros _|intros [R|R]; discriminate].
  assert (X : forall T (g : T -> ply_mesh_state) (nx : T -> option (outcome (with_line PlyError) mesh_item) * T) s s0,
    (forall s, ply_mesh_next ft (g s) = (as_item PItem (fst (nx s)), g (snd (nx s)))) ->
    ply_mesh_next ft s0 = (Some (Ok (PReserve (vd_count v) (fd_count f))), g s) ->
    fold_loop nx (fun m x => let (m, r) := add_item m x in (m, simple r)) k s mesh_empty = Some (m, x) ->
    exists items, mesh_into m = (points_of items, indices_of items) /\
         (gives (ply_mesh_next ft) s0 (PReserve (vd_count v) (fd_count f) :: map PItem items) x \/
          x = Err (WNone PlyInvalidMeshIndices) /\ exists f',
            answers (ply_mesh_next ft) (2 + length items) s0 = map (fun a => Some (Ok a)) (PReserve (vd_count v) (fd_count f) :: map PItem items ++ [PItem (MFace f')]))).
  { intros T g nx s s0 G S0 L. destruct (mesh_loop_gives nx _ _ _ _ _ L) as (items & I & D). exists items. split; [exact I|].
    destruct D as [D|(D & f' & D2)]; [left|right].
    - eapply gives_item; [exact S0|]. exact (gives_map nx _ PItem g G _ _ _ D).
    - split; [exact D|]. exists f'. change (2 + length items)%nat with (Datatypes.S (Datatypes.S (length items))). cbn [answers]. rewrite S0. cbn [map]. f_equal.
      change (answers (ply_mesh_next ft) (Datatypes.S (length items)) (g s) = map (fun a => Some (Ok a)) (map PItem items ++ [PItem (MFace f')])).
      rewrite (answers_map nx _ PItem g G), D2, !map_map, !map_app, !map_map. reflexivity. }
  destruct fmt as [|en].
  - eapply (X _ (fun s => PlyMeshAscii None v f s)); [|reflexivity|exact H]. intros s. cbn [ply_mesh_next]. destruct (ascii_mesh_next_from ft v f s). reflexivity.
  - eapply (X _ (fun s => PlyMeshBinary None en v f s)); [|reflexivity|exact H]. intros s. cbn [ply_mesh_next]. destruct (simple_next _ s). reflexivity.
Qed.
Print Assumptions C171_ply_mesh_loaded.

(** Faces in .stl files: the faces whose corners and normals are loaded, then the same end. *)
Theorem C171_stl_loaded : forall ft k fmt r ps ns x, load_stl_triplets_from ft k fmt r = Some (ps, ns, x) ->
  match stl_iterator fmt r with
  | Err e => ps = [] /\ ns = [] /\ x = Err e
  | Panic => ps = [] /\ ns = [] /\ x = Panic
  | Ok s => exists items, gives (stl_next ft) s items x /\
      let faces := flat_map (fun i => match i with Data f => [f] | Reserve _ => [] end) items in
      ps = flat_map (fun f => [sf_a f; sf_b f; sf_c f]) faces /\ ns = map sf_n faces
  end.
Proof.
  intros ft k fmt r ps ns x. unfold load_stl_triplets_from, stl_items_from, stl_iterator. destruct (simple (stl_is_ascii_from fmt r)) as [[[] r']|e|].
  3-4: intros H; injection H as <- <- <-; auto.
  all: destruct (load_loop _ _ _ _) as [[items y]|] eqn:L; [|discriminate]; intros H; injection H as <- <- <-; destruct (gives_load _ _ _ _ _ _ L) as (l & -> & G); exists l; cbn [app];
    (split; [|split; clear; induction l as [|[|] l IH]; cbn; rewrite ?IH; reflexivity]).
  - rewrite <- (map_id l). refine (gives_map _ (stl_next ft) (fun a => a) StlAsciiState _ _ _ _ G). intros s. cbn [stl_next]. destruct (stl_ascii_next_from ft s) as [[[]|] ?]; reflexivity.
  - rewrite <- (map_id l). refine (gives_map _ (stl_next ft) (fun a => a) StlBinaryState _ _ _ _ G). intros s. cbn [stl_next]. destruct (stl_binary_next_from s) as [[[]|] ?]; reflexivity.
Qed.
Print Assumptions C171_stl_loaded.

(** Two points, of which the second is broken: the reservation, the first point, the error; the loader has the first point and the same error. *)
Example C171_loaded_case : let file := unlines (map str ["ply"; "format ascii 1.0"; "element vertex 2"; "property float x"; "property float y"; "property float z"; "end_header"; "1 2 3"; "4 5"]%string) in
  exists s, ply_points_iterator [Chunk file] = Ok s /\
  answers (ply_points_next demo) 4 s = [Some (Ok (Reserve 2)); Some (Ok (Data (fp3 1 2 3))); Some (Err (WLine 9 (str "4 5") InvalidVertex)); None] /\
  load_ply_points_from demo 10 [Chunk file] = Some ([fp3 1 2 3], Err (WLine 9 (str "4 5") InvalidVertex)).
Proof. intros file. eexists. split; [vm_compute; reflexivity|]. split; vmeq. Qed.
