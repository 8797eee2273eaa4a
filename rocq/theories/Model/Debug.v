(** Model of the `debug-images` feature in detect/linescan.rs and extract/qr/mod.rs: the pictures drawn
    for the developer.  They are copies of the prepared image that nothing reads, so of a `put_pixel` only
    its bounds check is kept.  Saving a picture cannot panic (`if let Ok`) and is left out. *)
From Verif.Model Require Export Pipeline.
Open Scope Z_scope.

(** `img.put_pixel(x, y, …)`: panics outside the image *)
Definition put_pixel (g : gray) (x y : Z) : res unit :=
  if Z.ltb x (gw g) && Z.ltb y (gh g) then Ok tt else Panic PIndex.

(** `for x in a..b { body }` for a body without a state *)
Definition each (l : list Z) (body : Z -> res unit) : res unit := foldM (fun _ x => body x) l tt.

(** `v > start + border && v < end - border` *)
Definition well_inside (v start end_ border : Z) : res bool :=
  lo <- chk_u32 (start + border) ;;
  if lo <? v then hi <- sub_Z end_ border ;; Ok (v <? hi) else Ok false.

(** linescan.rs:140-148 (border 3) and extract/qr/mod.rs:243-251 (border 2): the outline of a box *)
Definition draw_box (g : gray) (x_start x_end y_start y_end border : Z) : res unit :=
  each (zrange x_start x_end) (fun x => each (zrange y_start y_end) (fun y =>
    i <- well_inside x x_start x_end border ;;
    i <- (if (i : bool) then well_inside y y_start y_end border else Ok false) ;;
    if (i : bool) then Ok tt else put_pixel g x y)).

(** linescan.rs:132-149: around the candidates.  The lower end is cut at the width of the image. *)
Definition draw_candidate (g : gray) (c : finder_pos) : res unit :=
  let h := fmul (lit 7 2) (fp_module_size c) in
  let l := fp_location c in
  draw_box g (to_u32 (fmax0 (fsub (px l) h))) (Z.min (gw g) (to_u32 (fadd (px l) h)))
             (to_u32 (fmax0 (fsub (py l) h))) (Z.min (gw g) (to_u32 (fadd (py l) h))) 3.

(** linescan.rs:35-208 `detect` with the feature *)
Definition detect_debug (g : gray) : res (list qrloc) :=
  candidates <- find_candidates g ;;
  _ <- foldM (fun _ c => draw_candidate g c) candidates tt ;;
  find_locations candidates.

(** extract/qr/mod.rs:228-251: around the alignment pattern.  `max(0, …)` of a u32 is left out. *)
Definition draw_alignment (g : gray) (al : point) (module_size : f64) : res unit :=
  let h := fmul (lit 5 2) module_size in
  draw_box g (to_u32 (fsub (px al) h)) (Z.min (gw g) (to_u32 (fadd (px al) h)))
             (to_u32 (fsub (py al) h)) (Z.min (gw g) (to_u32 (fadd (py al) h))) 2.

(** extract/qr/mod.rs:289-302: the 25 points looked at by `is_alignment`, each only if inside the image *)
Definition draw_search (g : gray) (p : point) (dx dy : delta) (scale : f64) : res unit :=
  if flt (px p) (of_Z 0) || flt (py p) (of_Z 0) then Ok tt
  else
    let dx := dmul scale dx in
    let dy := dmul scale dy in
    each (zrange (-2) 3) (fun i => each (zrange (-2) 3) (fun j =>
      let pp := padd (padd p (dmul (of_Z i) dx)) (dmul (of_Z j) dy) in
      let x := round_u32 (px pp) in
      let y := round_u32 (py pp) in
      if (x <? gw g) && (y <? gh g) then put_pixel g x y else Ok tt)).

(** [find_alignment] with the feature; the drawing precedes the tests *)
Fixpoint find_alignment_debug (g : gray) (dx dy : delta) (l : list (f64 * point))
  : res (option point) :=
  match l with
  | [] => Ok None
  | (scale, p) :: l =>
      _ <- draw_search g p dx dy scale ;;
      b <- is_alignment g p dx dy scale ;;
      if (b : bool) then Ok (Some p) else find_alignment_debug g dx dy l
  end.

(** extract/qr/mod.rs:104-279 `determine_perspective` with the feature *)
Definition determine_perspective_debug (g : gray) (version size : Z) (loc : qrloc)
  : res perspective :=
  size7 <- sub_Z size 7 ;;
  let dx := ddiv (pdiff (top_right loc) (top_left loc)) (of_Z size7) in
  let dy := ddiv (pdiff (bottom_left loc) (top_left loc)) (of_Z size7) in
  if version =? 1 then Ok (Persp dx no_delta dy no_delta)
  else
    size10 <- sub_Z size 10 ;;
    let est := estimate loc dx dy size10 in
    found <- find_alignment_debug g dx dy (search_points est dx dy) ;;
    match found with
    | None => Err ENoAlignmentPattern
    | Some p =>
        al <- centre_alignment g p ;;
        _ <- draw_alignment g al (module_size loc) ;;
        let orig := estimate loc dx dy size10 in
        sq <- chk_u32 (size10 * size10) ;;
        Ok (Persp dx (ddiv (pdiff al orig) (of_Z sq)) dy no_delta)
    end.

(** extract/qr/mod.rs:62-71: a mark on every dark sample.  The lower end is cut at the width here, too. *)
Definition draw_sample (g : gray) (x y : Z) : res unit :=
  x2 <- chk_u32 (x + 2) ;;
  each (zrange (Z.max 0 (x - 2)) (Z.min (gw g) x2)) (fun i =>
    y2 <- chk_u32 (y + 2) ;;
    each (zrange (Z.max 0 (y - 2)) (Z.min (gw g) y2)) (fun j => put_pixel g i j)).

(** extract/qr/mod.rs:57-75 with the feature *)
Fixpoint sample_row_debug (n : nat) (g : gray) (line : point) (dx : delta) (data : list N)
  : res (list N) :=
  match n with
  | O => Ok data
  | S n =>
      let x := round_u32 (px line) in
      let y := round_u32 (py line) in
      pixel <- get_pixel g x y ;;
      _ <- (if N.eqb pixel 0 then draw_sample g x y else Ok tt) ;;
      sample_row_debug n g (padd line dx) dx (data ++ [pixel])
  end.

(** extract/qr/mod.rs:54-80 with the feature *)
Fixpoint sample_rows_debug (n : nat) (cols : nat) (g : gray) (p : perspective)
  (start : point) (dx dy : delta) (data : list N) : res (list N) :=
  match n with
  | O => Ok data
  | S n =>
      let line := psub start (dmul (of_Z 3) dx) in
      data <- sample_row_debug cols g line dx data ;;
      sample_rows_debug n cols g p (padd start dy) (dadd dx (pddx p)) (dadd dy (pddy p)) data
  end.

(** extract/qr/mod.rs:34-102 `extract` with the feature *)
Definition extract_debug (g : gray) (loc : qrloc) : res qrdata :=
  v4 <- chk_u32 (version loc * 4) ;;
  size <- chk_u32 (17 + v4) ;;
  p <- determine_perspective_debug g (version loc) size loc ;;
  let three := of_Z 3 in
  let start := psub (psub (top_left loc) (dmul three (pdy p))) (dmul three (pddy p)) in
  let dy := dsub (pdy p) (dmul three (pddy p)) in
  let dx := dsub (pdx p) (dmul three (pddx p)) in
  data <- sample_rows_debug (Z.to_nat size) (Z.to_nat size) g p start dx dy [] ;;
  qrdata_new data (version loc).
