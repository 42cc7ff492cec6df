(** Model of tm_bin_packing.h. tmbp_int is int32_t: [i32] makes overflow undefined behaviour. *)
From Coq Require Import ZArith List Bool.
From Verif Require Import Base.
Import ListNotations.
Local Open Scope Z_scope.

(** tm_bin_packing.h 263-272: tmbp_rect, tmbp_int, TMBP_INT_MIN/MAX, TMBP_INVALID_SCORE 280. *)
Record rect := Rect { left : Z; top : Z; width : Z; height : Z }.
Definition INT_MIN : Z := -2147483648.
Definition INT_MAX : Z := 2147483647.
Definition INVALID_SCORE : Z := INT_MAX.
Definition i32 (z : Z) : option Z := if (INT_MIN <=? z) && (z <=? INT_MAX) then Some z else None.

(** tm_bin_packing.h 304-308: tmbp_rect_array. [data] is the whole allocation, its length is the
    capacity; the first [size] cells are in use, the others hold whatever was there before. *)
Record arr := Arr { data : list rect; size : nat }.
Definition capacity (a : arr) : nat := length (data a).

(** tm_bin_packing.h 310-319: BinPack. Of the allocator only the presence of a reallocate function
    is kept; allocation is assumed to succeed and to leave zeroes in new cells. *)
Record pack := Pack {
  p_width : Z; p_height : Z; p_used_area : Z;
  p_free : arr; p_used : arr; p_realloc : bool }.

(** tm_bin_packing.h 556-572 tmbp_push, followed by the store all callers perform. (cap+1)*1.5
    truncated is computed exactly. *)
Definition tmbp_push (a : arr) (realloc : bool) (r : rect) : option arr :=
  if (capacity a <=? size a)%nat
  then
    if realloc
    then
      let newSize := (3 * (capacity a + 1) / 2)%nat in
      d <- write (data a ++ repeat (Rect 0 0 0 0) (newSize - capacity a)) (size a) r ;;
      Some (Arr d (S (size a)))
    else None
  else d <- write (data a) (size a) r ;; Some (Arr d (S (size a))).

(** tm_bin_packing.h 581-595 tmbp_unstable_erase. *)
Definition tmbp_unstable_erase (a : arr) (index : nat) : option arr :=
  assert_ ((0 <? size a) && (size a <=? capacity a) && (index <? size a))%nat
  (let size' := (size a - 1)%nat in
   if (index =? size')%nat then Some (Arr (data a) size')
   else
     last <- nth_error (data a) size' ;;
     d <- write (data a) index last ;;
     Some (Arr d size')).

(** tm_bin_packing.h 679-695 binPackInit. *)
Definition binPackInit (p : pack) (w h : Z) : option pack :=
  f <- tmbp_push (Arr (data (p_free p)) 0) (p_realloc p) (Rect 0 0 w h) ;;
  Some (Pack w h 0 f (Arr (data (p_used p)) 0) (p_realloc p)).

(** tm_bin_packing.h 601-623 binPackCreate(Ex), allocations succeeding. *)
Definition binPackCreateEx (w h : Z) (initialFree initialUsed : nat) : option pack :=
  binPackInit (Pack 0 0 0 (Arr (repeat (Rect 0 0 0 0) initialFree) 0)
                          (Arr (repeat (Rect 0 0 0 0) initialUsed) 0) true) w h.
Definition binPackCreate (w h : Z) : option pack := binPackCreateEx w h 16 16.

(** tm_bin_packing.h 660-678 binPackCreateStatic: the caller's memory, no reallocation. *)
Definition binPackCreateStatic (w h : Z) (freeRects usedRects : list rect) : option pack :=
  binPackInit (Pack 0 0 0 (Arr freeRects 0) (Arr usedRects 0) false) w h.

(** tm_bin_packing.h 636-650 binPackReset: [p_width] and [p_height] are not updated. *)
Definition binPackReset (p : pack) (w h : Z) : option pack :=
  f <- (match data (p_free p) with
        | [] => Some (Arr [] 0)
        | _ :: d => Some (Arr (Rect 0 0 w h :: d) 1)
        end) ;;
  Some (Pack (p_width p) (p_height p) 0 f (Arr (data (p_used p)) 0) (p_realloc p)).

(** tm_bin_packing.h 651 binPackClear. *)
Definition binPackClear (p : pack) : option pack := binPackReset p (p_width p) (p_height p).

(** tm_bin_packing.h 652-659 binPackFitToSize: both arrays are reallocated to their size; undefined
    without a reallocate function. *)
Definition binPackFitToSize (p : pack) : option pack :=
  assert_ (p_realloc p)
  (Some (Pack (p_width p) (p_height p) (p_used_area p)
     (Arr (firstn (size (p_free p)) (data (p_free p))) (size (p_free p)))
     (Arr (firstn (size (p_used p)) (data (p_used p))) (size (p_used p))) true)).

(** tm_bin_packing.h 525 binPackHasSpace. *)
Definition binPackHasSpace (p : pack) : bool := (size (p_used p) <? capacity (p_used p))%nat.

(** tm_bin_packing.h 532-533. *)
Definition guillotineFreeRectsSize (n : nat) : nat := (n * 2)%nat.
Definition maxRectsFreeRectsSize (n : nat) : nat := (n * 5)%nat.

(** tm_bin_packing.h 697 tmbp_abs. *)
Definition tmbp_abs (v : Z) : option Z := if v <? 0 then i32 (- v) else Some v.

(** tm_bin_packing.h 358-372: enumerations. *)
Inductive free_choice := BestAreaFit | BestShortSideFit | BestLongSideFit.
Inductive split_choice :=
  | ShorterLeftoverAxis | LongerLeftoverAxis | MinimizeArea | MaximizeArea | ShorterAxis | LongerAxis.

(** tm_bin_packing.h 705-719: the three score functions. *)
Definition guillotineScore (c : free_choice) (w h : Z) (f : rect) : option Z :=
  match c with
  | BestAreaFit => fa <- i32 (width f * height f) ;; a <- i32 (w * h) ;; i32 (fa - a)
  | _ =>
    dh <- i32 (width f - w) ;; leftoverHoriz <- tmbp_abs dh ;;
    dv <- i32 (height f - h) ;; leftoverVert <- tmbp_abs dv ;;
    Some (match c with
          | BestShortSideFit => if leftoverHoriz <? leftoverVert then leftoverHoriz else leftoverVert
          | _ => if leftoverHoriz <? leftoverVert then leftoverVert else leftoverHoriz
          end)
  end.

(** tm_bin_packing.h 384-388 GuillotineHeuristicResult. *)
Record gresult := GResult { g_index : nat; g_score : Z; g_flipped : bool }.

(** tm_bin_packing.h 720-821: guillotineBestAreaFit, guillotineBestShortSideFit and
    guillotineBestLongSideFit; the three texts differ only in the score function. [fs] are the
    free rects from index [i] on. *)
Fixpoint guillotineBest (c : free_choice) (w h : Z) (fs : list rect) (i : nat) (res : gresult) : option gresult :=
  match fs with
  | [] => Some res
  | f :: fs' =>
    if (w =? width f) && (h =? height f) then Some (GResult i INT_MIN false)
    else if (h =? width f) && (w =? height f) then Some (GResult i INT_MIN true)
    else if (w <=? width f) && (h <=? height f) then
      score <- guillotineScore c w h f ;;
      guillotineBest c w h fs' (S i) (if score <? g_score res then GResult i score false else res)
    else if (h <=? width f) && (w <=? height f) then
      score <- guillotineScore c h w f ;;
      guillotineBest c w h fs' (S i) (if score <? g_score res then GResult i score true else res)
    else guillotineBest c w h fs' (S i) res
  end.

(** tm_bin_packing.h 848-914: the three NoFlip variants. *)
Fixpoint guillotineBestNoFlip (c : free_choice) (w h : Z) (fs : list rect) (i : nat) (res : gresult) : option gresult :=
  match fs with
  | [] => Some res
  | f :: fs' =>
    if (w =? width f) && (h =? height f) then Some (GResult i INT_MIN false)
    else if (w <=? width f) && (h <=? height f) then
      score <- guillotineScore c w h f ;;
      guillotineBestNoFlip c w h fs' (S i) (if score <? g_score res then GResult i score false else res)
    else guillotineBestNoFlip c w h fs' (S i) res
  end.

Definition contents (a : arr) : list rect := firstn (size a) (data a).

(** tm_bin_packing.h 822-846 guillotineChoice and 915-938 guillotineChoiceNoFlip. *)
Definition guillotineChoice (p : pack) (w h : Z) (c : free_choice) (canFlip : bool) : option gresult :=
  let init := GResult 0 INVALID_SCORE false in
  if canFlip then guillotineBest c w h (contents (p_free p)) 0 init
  else guillotineBestNoFlip c w h (contents (p_free p)) 0 init.

(** tm_bin_packing.h 940-954 binPackRectFromPosition. *)
Definition binPackRectFromPosition (p : pack) (w h : Z) (index : nat) (flipped : bool) : option rect :=
  current <- nth_error (data (p_free p)) index ;;
  Some (if flipped then Rect (left current) (top current) h w else Rect (left current) (top current) w h).

(** tm_bin_packing.h 956-1015 guillotineSplitFreeRectByHeuristic: the direction of the cut. *)
Definition guillotineSplitHorizontal (f r : rect) (w h : Z) (c : split_choice) : option bool :=
  match c with
  | ShorterLeftoverAxis => Some (w <=? h)
  | LongerLeftoverAxis => Some (h <? w)
  | MinimizeArea => a <- i32 (width r * h) ;; b <- i32 (w * height r) ;; Some (b <? a)
  | MaximizeArea => a <- i32 (width r * h) ;; b <- i32 (w * height r) ;; Some (a <=? b)
  | ShorterAxis => Some (width f <=? height f)
  | LongerAxis => Some (height f <? width f)
  end.

Definition guillotineSplit (fr : arr) (realloc : bool) (f r : rect) (c : split_choice) : option arr :=
  w <- i32 (width f - width r) ;;
  h <- i32 (height f - height r) ;;
  splitHorizontal <- guillotineSplitHorizontal f r w h c ;;
  btop <- i32 (top f + height r) ;;
  rleft <- i32 (left f + width r) ;;
  let bottom := Rect (left f) btop (if splitHorizontal : bool then width f else width r) h in
  let right := Rect rleft (top f) w (if splitHorizontal : bool then height r else height f) in
  fr <- (if (0 <? width bottom) && (0 <? height bottom) then tmbp_push fr realloc bottom else Some fr) ;;
  if (0 <? width right) && (0 <? height right) then tmbp_push fr realloc right else Some fr.

(** tm_bin_packing.h 374-382 BinPackResult. *)
Record bpresult := BPResult { br_rect : rect; br_flipped : bool; br_placed : bool }.
Definition not_placed : bpresult := BPResult (Rect 0 0 0 0) false false.

(** tm_bin_packing.h 1017-1032 guillotineInsert. *)
Definition guillotineInsert (p : pack) (w h : Z) (choice : gresult) (sc : split_choice) : option (pack * bpresult) :=
  assert_ (negb (g_score choice =? INVALID_SCORE))
  (r <- binPackRectFromPosition p w h (g_index choice) (g_flipped choice) ;;
   freeRect <- nth_error (data (p_free p)) (g_index choice) ;;
   fr <- tmbp_unstable_erase (p_free p) (g_index choice) ;;
   fr <- guillotineSplit fr (p_realloc p) freeRect r sc ;;
   us <- tmbp_push (p_used p) (p_realloc p) r ;;
   area <- i32 (width r * height r) ;;
   total <- i32 (p_used_area p + area) ;;
   Some (Pack (p_width p) (p_height p) total fr us (p_realloc p), BPResult r (g_flipped choice) true)).

(** tm_bin_packing.h 1033-1047 guillotineInsertChoice. *)
Definition guillotineInsertChoice (p : pack) (w h : Z) (fc : free_choice) (sc : split_choice) (canFlip : bool)
  : option (pack * bpresult) :=
  result <- guillotineChoice p w h fc canFlip ;;
  if negb (g_score result =? INVALID_SCORE) then guillotineInsert p w h result sc
  else Some (p, not_placed).

(** tm_bin_packing.h 1105-1133: merging one pair; [Some (Some a')] when [b] is merged into [a]. *)
Definition merge_pair (a b : rect) : option (option rect) :=
  if (left a =? left b) && (width a =? width b) then
    bb <- i32 (top b + height b) ;;
    if top a =? bb then
      t <- i32 (top a - height b) ;; h <- i32 (height a + height b) ;;
      Some (Some (Rect (left a) t (width a) h))
    else
      ab <- i32 (top a + height a) ;;
      if ab =? top b then
        h <- i32 (height a + height b) ;; Some (Some (Rect (left a) (top a) (width a) h))
      else Some None
  else if (top a =? top b) && (height a =? height b) then
    bb <- i32 (left b + width b) ;;
    if left a =? bb then
      l <- i32 (left a - width b) ;; w <- i32 (width a + width b) ;;
      Some (Some (Rect l (top a) w (height a)))
    else
      ab <- i32 (left a + width a) ;;
      if ab =? left b then
        w <- i32 (width a + width b) ;; Some (Some (Rect (left a) (top a) w (height a)))
      else Some None
  else Some None.

(** tm_bin_packing.h 1102-1136: the loop over j. The local freeRectsCount always equals the size
    of the array. Each round either advances j or shrinks the array. *)
Fixpoint merge_inner (fuel : nat) (fr : arr) (i j : nat) : option arr :=
  match fuel with
  | O => None
  | S fuel' =>
    if (j <? size fr)%nat then
      a <- nth_error (data fr) i ;;
      b <- nth_error (data fr) j ;;
      m <- merge_pair a b ;;
      match m with
      | Some a' =>
        d <- write (data fr) i a' ;;
        fr' <- tmbp_unstable_erase (Arr d (size fr)) j ;;
        merge_inner fuel' fr' i j
      | None => merge_inner fuel' fr i (S j)
      end
    else Some fr
  end.
Fixpoint merge_outer (fuel : nat) (fr : arr) (i : nat) : option arr :=
  match fuel with
  | O => None
  | S fuel' =>
    if (i <? size fr)%nat then
      fr' <- merge_inner (S (size fr)) fr i (S i) ;; merge_outer fuel' fr' (S i)
    else Some fr
  end.

(** tm_bin_packing.h 1098-1137 guillotineMergeFreeRects. *)
Definition guillotineMergeFreeRects (p : pack) : option pack :=
  fr <- merge_outer (S (size (p_free p))) (p_free p) 0 ;;
  Some (Pack (p_width p) (p_height p) (p_used_area p) fr (p_used p) (p_realloc p)).

(** tm_bin_packing.h 390-393 BinPackBatchDim: dimensions and user data (a number here). *)
Definition batch_dim : Type := (Z * Z * nat)%type.

(** tm_bin_packing.h 1056-1072: best remaining dimension. [ds] are the dimensions from index [i] on. *)
Fixpoint batch_best (p : pack) (fc : free_choice) (canFlip : bool) (ds : list batch_dim) (i : nat)
  (best : gresult) (bestIndex : nat) : option (gresult * nat) :=
  match ds with
  | [] => Some (best, bestIndex)
  | (w, h, _) :: ds' =>
    result <- guillotineChoice p w h fc canFlip ;;
    if g_score result <? g_score best then
      if g_score result =? INT_MIN then Some (result, i)
      else batch_best p fc canFlip ds' (S i) result i
    else batch_best p fc canFlip ds' (S i) best bestIndex
  end.

(** tm_bin_packing.h 1089-1094: swap a processed dimension to the end of the unprocessed part. *)
Definition batch_swap (ds : list batch_dim) (bestIndex dimsCount : nat) : option (list batch_dim) :=
  if (bestIndex =? dimsCount)%nat then Some ds
  else
    tmp <- nth_error ds bestIndex ;;
    l <- nth_error ds dimsCount ;;
    ds <- write ds bestIndex l ;;
    write ds dimsCount tmp.

(** tm_bin_packing.h 1048-1096 guillotineInsertBatch; the loop is structural in dimsCount.
    Result: pack, reordered dims, results in order, dims left over. *)
Fixpoint guillotineInsertBatch (p : pack) (dims : list batch_dim) (dimsCount : nat)
  (fc : free_choice) (sc : split_choice) (canFlip merge : bool)
  : option (pack * list batch_dim * list (bpresult * nat) * nat) :=
  match dimsCount with
  | O => Some (p, dims, [], O)
  | S n =>
    ' (best, bestIndex) <- batch_best p fc canFlip (firstn dimsCount dims) 0 (GResult 0 INVALID_SCORE false) 0 ;;
    if g_score best =? INVALID_SCORE then Some (p, dims, [], dimsCount)
    else
      ' (w, h, user) <- nth_error dims bestIndex ;;
      ' (p, res) <- guillotineInsert p w h best sc ;;
      p <- (if br_placed res && merge then guillotineMergeFreeRects p else Some p) ;;
      dims <- batch_swap dims bestIndex n ;;
      ' (p, dims, rs, rest) <- guillotineInsertBatch p dims n fc sc canFlip merge ;;
      Some (p, dims, (res, user) :: rs, rest)
  end.

(** * MaxRects *)

(** tm_bin_packing.h 455-468. *)
Inductive mr_choice := MRShortSide | MRLongSide | MRArea | MRBottomLeft | MRContact.
Record mresult := MResult { m_index : nat; m_s0 : Z; m_s1 : Z; m_flipped : bool }.

(** tm_bin_packing.h 1140-1145 maxRectsCommonIntervalLength. *)
Definition commonInterval (aStart aEnd bStart bEnd : Z) : option Z :=
  if (aEnd <? bStart) || (bEnd <? aStart) then Some 0
  else i32 ((if aEnd <? bEnd then aEnd else bEnd) - (if aStart <? bStart then bStart else aStart)).

(** tm_bin_packing.h 1155-1166: loop over the used rects. *)
Fixpoint contact_loop (us : list rect) (l t r b score : Z) : option Z :=
  match us with
  | [] => Some score
  | u :: us' =>
    ur <- i32 (left u + width u) ;;
    ub <- i32 (top u + height u) ;;
    score <- (if (left u =? r) || (ur =? l)
              then c <- commonInterval (top u) ub t b ;; i32 (score + c) else Some score) ;;
    score <- (if (top u =? b) || (ub =? t)
              then c <- commonInterval (left u) ur l r ;; i32 (score + c) else Some score) ;;
    contact_loop us' l t r b score
  end.

(** tm_bin_packing.h 1146-1167 maxRectsContactPointScore. *)
Definition contactPointScore (p : pack) (l t r b : Z) : option Z :=
  s1 <- (if (l =? 0) || (r =? p_width p) then i32 (b - t) else Some 0) ;;
  s2 <- (if (t =? 0) || (b =? p_height p) then d <- i32 (r - l) ;; i32 (s1 + d) else Some s1) ;;
  contact_loop (contents (p_used p)) l t r b s2.

(** tm_bin_packing.h 1169-1345: the pair of scores of placing [w]x[h] in free rect [f]. *)
Definition mr_scores (c : mr_choice) (p : pack) (w h : Z) (f : rect) : option (Z * Z) :=
  match c with
  | MRBottomLeft => t <- i32 (top f + h) ;; Some (t, left f)
  | MRContact =>
    r <- i32 (left f + w) ;; b <- i32 (top f + h) ;;
    s <- contactPointScore p (left f) (top f) r b ;;
    s <- i32 (- s) ;; Some (s, INVALID_SCORE)
  | _ =>
    dh <- i32 (width f - w) ;; leftoverHoriz <- tmbp_abs dh ;;
    dv <- i32 (height f - h) ;; leftoverVert <- tmbp_abs dv ;;
    let short := if leftoverHoriz <? leftoverVert then leftoverHoriz else leftoverVert in
    let long := if leftoverHoriz <? leftoverVert then leftoverVert else leftoverHoriz in
    match c with
    | MRArea => fa <- i32 (width f * height f) ;; a <- i32 (w * h) ;; s <- i32 (fa - a) ;; Some (s, short)
    | _ => Some (short, long)
    end
  end.

(** The comparison each rule uses before replacing its best result. MRLongSide compares the second
    score first; MRContact looks at the first score only (both second scores are INVALID_SCORE). *)
Definition mr_better (c : mr_choice) (s : Z * Z) (res : mresult) : bool :=
  let (s0, s1) := s in
  match c with
  | MRLongSide => (s1 <? m_s1 res) || ((s1 =? m_s1 res) && (s0 <? m_s0 res))
  | MRContact => s0 <? m_s0 res
  | _ => (s0 <? m_s0 res) || ((s0 =? m_s0 res) && (s1 <? m_s1 res))
  end.

Definition mr_try (c : mr_choice) (p : pack) (w h : Z) (f : rect) (i : nat) (flipped : bool) (res : mresult)
  : option mresult :=
  if (w <=? width f) && (h <=? height f) then
    s <- mr_scores c p w h f ;;
    Some (if mr_better c s res then MResult i (fst s) (snd s) flipped else res)
  else Some res.

(** tm_bin_packing.h 1169-1346 (flipping) and 1382-1494 (NoFlip): the rules share this loop. The
    area rule computes its area difference before testing whether the bin fits. *)
Fixpoint mr_best (c : mr_choice) (canFlip : bool) (p : pack) (w h : Z) (fs : list rect) (i : nat) (res : mresult)
  : option mresult :=
  match fs with
  | [] => Some res
  | f :: fs' =>
    _ <- (match c with
          | MRArea => fa <- i32 (width f * height f) ;; a <- i32 (w * h) ;; i32 (fa - a)
          | _ => Some 0
          end) ;;
    res <- mr_try c p w h f i false res ;;
    res <- (if canFlip then mr_try c p h w f i true res else Some res) ;;
    mr_best c canFlip p w h fs' (S i) res
  end.

(** tm_bin_packing.h 1347-1379 maxRectsChoice and 1495-1529 maxRectsChoiceNoFlip. *)
Definition maxRectsChoice (p : pack) (w h : Z) (c : mr_choice) (canFlip : bool) : option mresult :=
  mr_best c canFlip p w h (contents (p_free p)) 0 (MResult 0 INVALID_SCORE INVALID_SCORE false).

(** tm_bin_packing.h 529-531 maxRectsHeuristicIsValidResult. *)
Definition mr_valid (r : mresult) : bool :=
  negb (m_s0 r =? INVALID_SCORE) || negb (m_s1 r =? INVALID_SCORE).

(** tm_bin_packing.h 1531-1571 maxRectsSplitFreeNode. *)
Definition maxRectsSplitFreeNode (fr : arr) (realloc : bool) (f u : rect) : option (arr * bool) :=
  fRight <- i32 (left f + width f) ;;
  fBottom <- i32 (top f + height f) ;;
  uRight <- i32 (left u + width u) ;;
  uBottom <- i32 (top u + height u) ;;
  if (fRight <=? left u) || (uRight <=? left f) || (fBottom <=? top u) || (uBottom <=? top f)
  then Some (fr, false)
  else
    fr <- (if (left u <? fRight) && (left f <? uRight) then
             fr <- (if (top f <? top u) && (top u <? fBottom) then
                      h <- i32 (top u - top f) ;;
                      tmbp_push fr realloc (Rect (left f) (top f) (width f) h)
                    else Some fr) ;;
             (if uBottom <? fBottom then
                h <- i32 (fBottom - uBottom) ;;
                tmbp_push fr realloc (Rect (left f) uBottom (width f) h)
              else Some fr)
           else Some fr) ;;
    fr <- (if (top u <? fBottom) && (top f <? uBottom) then
             fr <- (if (left f <? left u) && (left u <? fRight) then
                      w <- i32 (left u - left f) ;;
                      tmbp_push fr realloc (Rect (left f) (top f) w (height f))
                    else Some fr) ;;
             (if uRight <? fRight then
                w <- i32 (fRight - uRight) ;;
                tmbp_push fr realloc (Rect uRight (top f) w (height f))
              else Some fr)
           else Some fr) ;;
    Some (fr, true).

(** tm_bin_packing.h 1573-1576 maxRectsIsContainedIn. *)
Definition isContainedIn (a b : rect) : option bool :=
  ar <- i32 (left a + width a) ;; br <- i32 (left b + width b) ;;
  ab <- i32 (top a + height a) ;; bb <- i32 (top b + height b) ;;
  Some ((left b <=? left a) && (top b <=? top a) && (ar <=? br) && (ab <=? bb)).

(** tm_bin_packing.h 1584-1598: the loop over j; the flag tells that entry i was erased and the
    loop left by [break]. *)
Fixpoint prune_inner (fuel : nat) (fr : arr) (i j : nat) : option (arr * bool) :=
  match fuel with
  | O => None
  | S fuel' =>
    if (j <? size fr)%nat then
      a <- nth_error (data fr) i ;;
      b <- nth_error (data fr) j ;;
      c1 <- isContainedIn a b ;;
      if c1 : bool then fr' <- tmbp_unstable_erase fr i ;; Some (fr', true)
      else
        c2 <- isContainedIn b a ;;
        if c2 : bool then fr' <- tmbp_unstable_erase fr j ;; prune_inner fuel' fr' i j
        else prune_inner fuel' fr i (S j)
    else Some (fr, false)
  end.
(** [--i] of the code is undone by the [++i] of the for loop (unsigned, wraps around at 0). *)
Fixpoint prune_outer (fuel : nat) (fr : arr) (i : nat) : option arr :=
  match fuel with
  | O => None
  | S fuel' =>
    if (i <? size fr)%nat then
      ' (fr', erased) <- prune_inner (S (size fr)) fr i (S i) ;;
      prune_outer fuel' fr' (if erased : bool then i else S i)
    else Some fr
  end.
(** tm_bin_packing.h 1577-1600 maxRectsPruneFreeRects. *)
Definition maxRectsPrune (fr : arr) : option arr := prune_outer (S (size fr)) fr 0.

(** tm_bin_packing.h 1612-1617: the split loop of maxRectsInsert. [freeRects] and [freeRectsCount]
    are taken before the loop, so the loop visits the indices below the old size whatever the
    array's size has become, and reading through [freeRects] after the array was reallocated
    (its capacity then differs from [cap0]) is a use after free. [todo] counts the remaining rounds. *)
Fixpoint mr_split_loop (todo : nat) (cap0 : nat) (fr : arr) (realloc : bool) (u : rect) (i : nat) : option arr :=
  match todo with
  | O => Some fr
  | S todo' =>
    assert_ (capacity fr =? cap0)%nat
    (f <- nth_error (data fr) i ;;
     ' (fr, split) <- maxRectsSplitFreeNode fr realloc f u ;;
     fr <- (if split : bool then tmbp_unstable_erase fr i else Some fr) ;;
     mr_split_loop todo' cap0 fr realloc u (S i))
  end.

(** tm_bin_packing.h 1602-1621 maxRectsInsert. *)
Definition maxRectsInsert (p : pack) (w h : Z) (choice : mresult) : option (pack * bpresult) :=
  assert_ (mr_valid choice)
  (r <- binPackRectFromPosition p w h (m_index choice) (m_flipped choice) ;;
   fr <- mr_split_loop (size (p_free p)) (capacity (p_free p)) (p_free p) (p_realloc p) r 0 ;;
   fr <- maxRectsPrune fr ;;
   us <- tmbp_push (p_used p) (p_realloc p) r ;;
   area <- i32 (width r * height r) ;;
   total <- i32 (p_used_area p + area) ;;
   Some (Pack (p_width p) (p_height p) total fr us (p_realloc p), BPResult r (m_flipped choice) true)).

(** tm_bin_packing.h 1623-1638 maxRectsInsertChoice. *)
Definition maxRectsInsertChoice (p : pack) (w h : Z) (c : mr_choice) (canFlip : bool) : option (pack * bpresult) :=
  result <- maxRectsChoice p w h c canFlip ;;
  if mr_valid result then maxRectsInsert p w h result else Some (p, not_placed).

(** tm_bin_packing.h 1646-1660: best remaining dimension. *)
Fixpoint mr_batch_best (p : pack) (c : mr_choice) (canFlip : bool) (ds : list batch_dim) (i : nat)
  (best : mresult) (bestIndex : nat) : option (mresult * nat) :=
  match ds with
  | [] => Some (best, bestIndex)
  | (w, h, _) :: ds' =>
    result <- maxRectsChoice p w h c canFlip ;;
    if (m_s0 result <? m_s0 best) || ((m_s0 result =? m_s0 best) && (m_s1 result <? m_s1 best))
    then mr_batch_best p c canFlip ds' (S i) result i
    else mr_batch_best p c canFlip ds' (S i) best bestIndex
  end.

(** tm_bin_packing.h 1639-1676 maxRectsInsertBatch. *)
Fixpoint maxRectsInsertBatch (p : pack) (dims : list batch_dim) (dimsCount : nat) (c : mr_choice) (canFlip : bool)
  : option (pack * list batch_dim * list (bpresult * nat) * nat) :=
  match dimsCount with
  | O => Some (p, dims, [], O)
  | S n =>
    ' (best, bestIndex) <- mr_batch_best p c canFlip (firstn dimsCount dims) 0
                             (MResult 0 INVALID_SCORE INVALID_SCORE false) 0 ;;
    if negb (mr_valid best) then Some (p, dims, [], dimsCount)
    else
      ' (w, h, user) <- nth_error dims bestIndex ;;
      ' (p, res) <- maxRectsInsert p w h best ;;
      dims <- batch_swap dims bestIndex n ;;
      ' (p, dims, rs, rest) <- maxRectsInsertBatch p dims n c canFlip ;;
      Some (p, dims, (res, user) :: rs, rest)
  end.
