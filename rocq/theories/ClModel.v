(** Model of tm_polygon.h: clipping (lines 180-256 and 426-764). As in PgModel.v the arithmetic is a parameter, sizes are [nat] and
    conversions to the 16 bit tmpo_index are written out. [None]: a failed assertion or an access outside of an array. The
    entries of an array of ClipVertex beyond its size are not part of the list; they are written before they are read. *)
From Coq Require Import Arith Bool List.
From Verif Require Import Base PgModel.
Import ListNotations.

Definition update {A : Type} (l : list A) (i : nat) (f : A -> A) : option (list A) :=
  match nth_error l i with Some x => Some (firstn i l ++ f x :: skipn (S i) l) | None => None end.

Section Clip.
Variable F : arith.
Notation vec := (vec F).
(** tm_polygon.h:181-197, ClipVertex; flags: CVF_INTERSECT, CVF_EXIT, CVF_PROCESSED (nextPoly is not used) *)
Record vertex := Vertex { pos : vec; next : nat; prev : nat; neighbor : nat; isect : bool; exit : bool; seen : bool; alpha : num F }.
Definition set_pos p v := Vertex p (next v) (prev v) (neighbor v) (isect v) (exit v) (seen v) (alpha v).
Definition set_next n v := Vertex (pos v) n (prev v) (neighbor v) (isect v) (exit v) (seen v) (alpha v).
Definition set_prev n v := Vertex (pos v) (next v) n (neighbor v) (isect v) (exit v) (seen v) (alpha v).
Definition set_exit v := Vertex (pos v) (next v) (prev v) (neighbor v) (isect v) true (seen v) (alpha v).
Definition set_seen v := Vertex (pos v) (next v) (prev v) (neighbor v) (isect v) (exit v) true (alpha v).
(** tm_polygon.h:201-206, ClipVertices; size is the length of [data] *)
Record vertices := Vertices { data : list vertex; original : nat; capacity : nat }.
Definition with_data d p := Vertices d (original p) (capacity p).

(** tm_polygon.h:428-452, clipPolyTransformData; [cap]: maxClipVertices *)
Definition transform (vs : list vec) (cap : nat) : option vertices :=
  assert_ (length vs <=? cap) (
  let n := length vs in
  Some (Vertices
    (map (fun iv => let i := fst iv in
       Vertex (snd iv) (if S i =? n then 0 else index (S i)) (match i with O => index (index n + (2 ^ 16 - 1)) | S i' => index i' end) 0 false false false (zero F))
     (combine (seq 0 n) vs)) n cap)).

(** tm_polygon.h:455-469 and 492-499, clipPolyCreateVertex and clipPolyCreateIntersection *)
Definition create (p : vertices) (at_ : nat) (where_ : vec) (nb : nat) (al : num F) : option vertices :=
  let size := length (data p) in
  assert_ (size + 1 <=? capacity p) (
  ref <- nth_error (data p) at_ ;;
  _ <- nth_error (data p) (next ref) ;;
  d <- update (data p) at_ (set_next (index size)) ;;
  d <- update d (next ref) (set_prev (index size)) ;;
  Some (with_data (d ++ [Vertex where_ (next ref) (index at_) (index nb) true false false al]) p)).
(** tm_polygon.h:470-482, clipPolyLineIntersectionFactor; None: not hit *)
Definition factor (a ad b bd : vec) : option (num F) :=
  let cross := sub F (mul F (fst ad) (snd bd)) (mul F (snd ad) (fst bd)) in
  if ltb F cross (micro F) || ltb F (micro F) cross then
    let relx := sub F (fst a) (fst b) in
    let rely := sub F (snd a) (snd b) in
    Some (div F (sub F (mul F (fst bd) rely) (mul F (snd bd) relx)) cross)
  else None.
(** tm_polygon.h:484-491, clipPolyFindIntersectionIndex *)
Fixpoint find_index (fuel : nat) (p : vertices) (at_ : nat) (al : num F) : option nat :=
  match fuel with
  | O => None
  | S fuel =>
    ref <- nth_error (data p) at_ ;;
    if isect ref && ltb F al (alpha ref) then find_index fuel p (prev ref) al else Some at_
  end.
Definition minus (x y : vec) : vec := (sub F (fst x) (fst y), sub F (snd x) (snd y)).
Definition pushed (d v : vec) : vec := (sub F (fst v) (mul F (snd d) (push F)), add F (snd v) (mul F (fst d) (push F))).
(** tm_polygon.h:508-569, one round of the inner loop. [true]: go on with the next edge of b, [false]: continue *)
Definition edges (a b : vertices) (i aprev j bprev : nat) : option (bool * vertices * vertices) :=
  av <- nth_error (data a) i ;; ap <- nth_error (data a) aprev ;;
  bv <- nth_error (data b) j ;; bp <- nth_error (data b) bprev ;;
  let ad := minus (pos av) (pos ap) in
  let bd := minus (pos bv) (pos bp) in
  match factor (pos ap) ad (pos bp) bd, factor (pos bp) bd (pos ap) ad with
  | Some al, Some be =>
    if leb F (zero F) al && leb F al (one F) && leb F (zero F) be && leb F be (one F) then
      if leb F al (near0 F) then d <- update (data a) aprev (fun v => set_pos (pushed bd (pos v)) v) ;; Some (false, with_data d a, b)
      else if leb F (near1 F) al then d <- update (data a) i (fun v => set_pos (pushed bd (pos v)) v) ;; Some (false, with_data d a, b)
      else if leb F be (near0 F) then d <- update (data b) bprev (fun v => set_pos (pushed ad (pos v)) v) ;; Some (false, a, with_data d b)
      else if leb F (near1 F) be then d <- update (data b) j (fun v => set_pos (pushed ad (pos v)) v) ;; Some (false, a, with_data d b)
      else
        let x := (add F (fst (pos ap)) (mul F al (fst ad)), add F (snd (pos ap)) (mul F al (snd ad))) in
        ai <- find_index (S (length (data a))) a (prev av) al ;;
        bi <- find_index (S (length (data b))) b (prev bv) be ;;
        let an := length (data b) in
        let bn := length (data a) in
        a <- create a ai x an al ;;
        b <- create b bi x bn be ;;
        Some (true, a, b)
    else Some (true, a, b)
  | _, _ => Some (true, a, b)
  end.
(** tm_polygon.h:507-571, the inner loop, at most [fuel] rounds. [Some None]: still running *)
Fixpoint inner (fuel : nat) (a b : vertices) (i aprev j bprev : nat) : option (option (vertices * vertices * nat)) :=
  if j <? original b then
    match fuel with
    | O => Some None
    | S fuel =>
      ' (advance, a, b) <- edges a b i aprev j bprev ;;
      if advance : bool then inner fuel a b i aprev (S j) j else inner fuel a b i aprev j bprev
    end
  else Some (Some (a, b, bprev)).
(** tm_polygon.h:506-573, the outer loop; [n]: rounds left *)
Fixpoint outer (fuel n : nat) (a b : vertices) (i aprev bprev : nat) : option (option (vertices * vertices)) :=
  match n with
  | O => Some (Some (a, b))
  | S n =>
    r <- inner fuel a b i aprev 0 bprev ;;
    match r with
    | None => Some None
    | Some (a, b, bprev) => outer fuel n a b (S i) i bprev
    end
  end.
(** tm_polygon.h:501-573, clipPolyFindIntersections; at most [fuel] rounds for each edge of a *)
Definition find_intersections (fuel : nat) (a b : vertices) : option (option (vertices * vertices)) :=
  outer fuel (original a) a b 0 (original a - 1) (original b - 1).

(** tm_polygon.h:575-597, clipPolyPointInsidePoly *)
Fixpoint crossings (prv : vec) (l : list vec) (p : vec) : bool :=
  match l with
  | [] => false
  | cur :: l =>
    let hit :=
      if (leb F (snd p) (snd prv) && ltb F (snd cur) (snd p)) || (ltb F (snd prv) (snd p) && leb F (snd p) (snd cur)) then
        let al := div F (sub F (snd prv) (snd p)) (sub F (snd prv) (snd cur)) in
        ltb F (fst p) (add F (fst prv) (mul F al (sub F (fst cur) (fst prv))))
      else false in
    xorb hit (crossings cur l p)
  end.
Definition outline (p : vertices) : list vec := map pos (firstn (original p) (data p)).
Definition inside (poly : vertices) (p : vec) : bool :=
  crossings (last (outline poly) (zero F, zero F)) (outline poly) p.
(** tm_polygon.h:598-616, clipPolyMarkEntryExitPointsSingle; [forward]: CFD_FORWARD *)
Fixpoint mark_loop (fuel : nat) (d : list vertex) (i : nat) (ins : bool) : option (list vertex) :=
  match fuel with
  | O => None
  | S fuel =>
    v <- nth_error d i ;;
    ' (d, ins) <- (if isect v then (if ins then d' <- update d i set_exit ;; Some (d', negb ins) else Some (d, negb ins)) else Some (d, ins)) ;;
    if next v =? 0 then Some d else mark_loop fuel d (next v) ins
  end.
Definition mark_single (p other : vertices) (forward : bool) : option vertices :=
  match data p with
  | [] => Some p
  | v :: _ => d <- mark_loop (S (length (data p))) (data p) (next v) (xorb (inside other (pos v)) (negb forward)) ;; Some (with_data d p)
  end.
(** tm_polygon.h:618-625, clipPolyMarkEntryExitPoints *)
Definition mark (a b : vertices) (adir bdir : bool) : option (vertices * vertices) :=
  a <- mark_single a b adir ;; b <- mark_single b a bdir ;; Some (a, b).

(** What clipPolyEmitClippedPolygons has written: the vertices, and where each polygon starts and its size once it is written *)
Record output := Output { out : list vec; polys : list (nat * option nat) }.
(** The two polygons while they are walked: [side]: a is currentVertices *)
Definition current (side : bool) (ab : list vertex * list vertex) : list vertex := if side then fst ab else snd ab.
Definition with_current (side : bool) (d : list vertex) (ab : list vertex * list vertex) : list vertex * list vertex :=
  if side then (d, snd ab) else (fst ab, d).
(** tm_polygon.h:668-693, the two innermost loops; [back]: CVF_EXIT. Each round writes a vertex, so [fuel] of maxCount is never used up *)
Fixpoint walk (fuel : nat) (back : bool) (d : list vertex) (i : nat) (o : output) (max : nat) : option (nat * list vertex * output) :=
  match fuel with
  | O => None
  | S fuel =>
    v <- nth_error d i ;;
    let i := if back then prev v else next v in
    d <- update d i set_seen ;;
    v <- nth_error d i ;;
    assert_ (length (out o) + 1 <=? max) (
    let o := Output (out o ++ [pos v]) (polys o) in
    if isect v then Some (i, d, o) else walk fuel back d i o max)
  end.
(** tm_polygon.h:667-704, the loop around them *)
Fixpoint arcs (fuel : nat) (ab : list vertex * list vertex) (side : bool) (i : nat) (start : nat) (o : output) (max : nat) : option (list vertex * list vertex * output) :=
  match fuel with
  | O => None
  | S fuel =>
    v <- nth_error (current side ab) i ;;
    ' (i, d, o) <- walk (S max) (exit v) (current side ab) i o max ;;
    let ab := with_current side d ab in
    v <- nth_error d i ;;
    let i := neighbor v in
    let side := negb side in
    d <- update (current side ab) i set_seen ;;
    let ab := with_current side d ab in
    v <- nth_error d i ;;
    assert_ (isect v) (
    if (i =? start) && side then Some (ab, o) else arcs fuel ab side i start o max)
  end.
Definition set_size (l : list (nat * option nat)) (n : nat) : list (nat * option nat) :=
  match rev l with [] => [] | (start, _) :: r => rev r ++ [(start, Some (n - start))] end.
(** tm_polygon.h:649-708, the main loop. currentPoly is the last polygon whenever there is one. *)
Fixpoint emit_loop (fuel : nat) (ab : list vertex * list vertex) (i : nat) (has : bool) (o : output) (maxp max : nat) : option (list vertex * list vertex * bool * output) :=
  if i =? 0 then Some (ab, has, o)
  else match fuel with
  | O => None
  | S fuel =>
    v <- nth_error (fst ab) i ;;
    ' (ab, has, o) <-
      (if isect v && negb (seen v) then
         d <- update (fst ab) i set_seen ;;
         let ab := (d, snd ab) in
         let ps := set_size (polys o) (length (out o)) in
         assert_ (length ps + 1 <=? maxp) (
         ' (ab, o) <- arcs (S max) ab true i i (Output (out o) (ps ++ [(length (out o), None)])) max ;;
         Some (ab, true, o))
       else Some (ab, has, o)) ;;
    v <- nth_error (fst ab) i ;;
    emit_loop fuel ab (next v) has o maxp max
  end.
(** tm_polygon.h:627-753, clipPolyEmitClippedPolygons; [maxp]: maxPolygons, [max]: maxCount *)
Definition emit (a b : vertices) (maxp max : nat) : option output :=
  match data a with
  | [] => Some (Output [] [])
  | v0 :: _ =>
    ' (ab, has, o) <- emit_loop (S (length (data a))) (data a, data b) (next v0) false (Output [] []) maxp max ;;
    let a := with_data (fst ab) a in
    let b := with_data (snd ab) b in
    o <- (if has : bool then Some o
          else if inside b (pos v0) then
            assert_ (length (polys o) + 1 <=? maxp) (Some (Output (firstn max (outline a)) [(0, None)]))
          else match data b with
          | w0 :: _ =>
            if inside a (pos w0) then assert_ (length (polys o) + 1 <=? maxp) (Some (Output (firstn max (outline b)) [(0, None)]))
            else Some o
          | [] => Some o
          end) ;;
    Some (Output (out o) (set_size (polys o) (length (out o))))
  end.
(** tm_polygon.h:755-760, clipPolyEmitClippedPolygon: the vertices and the size returned *)
Definition emit_single (a b : vertices) (max : nat) : option (list vec * nat) :=
  o <- emit a b 1 max ;; Some (out o, match polys o with (_, Some n) :: _ => n | _ => 0 end).

(** The phases in the documented order (lines 17-56) *)
Definition clip (fuel : nat) (va vb : list vec) (capa capb : nat) (adir bdir : bool) (maxp max : nat) : option (option output) :=
  a <- transform va capa ;; b <- transform vb capb ;;
  r <- find_intersections fuel a b ;;
  match r with
  | None => Some None
  | Some (a, b) =>
    ' (a, b) <- mark a b adir bdir ;;
    o <- emit a b maxp max ;; Some (Some o)
  end.
End Clip.
