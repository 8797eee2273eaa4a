(** Model of /repo/src/detect/linescan.rs, without the `debug-images` feature. *)
From Verif.Model Require Export Float.
Open Scope Z_scope.

(** util/qr.rs:82-98 *)
Record qrloc := mkQRLoc {
  top_left : point;
  top_right : point;
  bottom_left : point;
  module_size : f64;
  version : Z
}.

(** linescan.rs:362 `QRFinderPattern`: seven u32 run lengths *)
Record pattern := Pat { p0 : Z; p1 : Z; p2 : Z; p3 : Z; p4 : Z; p5 : Z; p6 : Z }.

(** linescan.rs:365-367 *)
Definition pattern_new : pattern := Pat 0 0 0 0 0 0 0.

(** `pattern.6 += 1` *)
Definition pattern_inc (p : pattern) : res pattern :=
  n <- chk_u32 (p6 p + 1) ;;
  Ok (Pat (p0 p) (p1 p) (p2 p) (p3 p) (p4 p) (p5 p) n).

(** linescan.rs:369-395 `slide` *)
Definition slide (p : pattern) : res pattern :=
  if flt (of_Z (p6 p)) (fdiv (of_Z (p5 p)) (of_Z 10)) && negb (p4 p =? 0) then
    n <- chk_u32 (p6 p + p5 p) ;;
    Ok (Pat 0 (p0 p) (p1 p) (p2 p) (p3 p) (p4 p) n)
  else Ok (Pat (p1 p) (p2 p) (p3 p) (p4 p) (p5 p) (p6 p) 1).

(** `self.2 + self.3 + self.4 + self.5 + self.6` *)
Definition total_size (p : pattern) : res Z :=
  a <- chk_u32 (p2 p + p3 p) ;;
  a <- chk_u32 (a + p4 p) ;;
  a <- chk_u32 (a + p5 p) ;;
  chk_u32 (a + p6 p).

(** linescan.rs:397-399 `est_mod_size` *)
Definition est_mod_size (p : pattern) : res f64 :=
  t <- total_size p ;; Ok (fdiv (of_Z t) (of_Z 7)).

(** one of the five checks of linescan.rs:412-430 *)
Definition off (expected : f64) (count : Z) (max_variance : f64) : bool :=
  fgt (fabs (fsub expected (of_Z count))) max_variance.

(** linescan.rs:402-433 `looks_like_finder` *)
Definition looks_like_finder (p : pattern) : res bool :=
  t <- total_size p ;;
  if t <? 7 then Ok false
  else
    let module_size := fdiv (of_Z t) (of_Z 7) in
    let max_variance := fdiv module_size (lit 3 2) in
    Ok (negb (off module_size (p2 p) max_variance
              || off module_size (p3 p) max_variance
              || off (fmul module_size (of_Z 3)) (p4 p) max_variance
              || off module_size (p5 p) max_variance
              || off module_size (p6 p) max_variance)).

(** linescan.rs:437-443 `diff` *)
Definition diff (a b : f64) : f64 :=
  if fgt a b then fdiv (fsub a b) a else fdiv (fsub b a) b.

(** linescan.rs:446-449 `dist` *)
Definition dist (one other : point) : f64 :=
  fsqrt (fadd (fmul (fsub (px one) (px other)) (fsub (px one) (px other)))
              (fmul (fsub (py one) (py other)) (fsub (py one) (py other)))).

(** linescan.rs:535-540 `QRFinderPosition` *)
Record finder_pos := FP { fp_location : point; fp_module_size : f64; fp_last : f64 }.

(** linescan.rs:318-330 and 343-355: does the current pattern confirm the candidate? *)
Definition confirm (module_size : f64) (p : pattern) (x y : Z) (is_diagonal : bool)
  : res (option finder_pos) :=
  l <- looks_like_finder p ;;
  if (l : bool) then
    e <- est_mod_size p ;;
    if flt (diff module_size e) (lit 2 10) || is_diagonal
    then Ok (Some (FP (Pt (of_Z x) (of_Z y)) (fdiv (fadd module_size e) (of_Z 2)) e))
    else Ok None
  else Ok None.

(** linescan.rs:310-355: the loop of `refine` and what follows it *)
Fixpoint refine_loop (g : gray) (module_size : f64) (is_diagonal : bool)
  (path : list (Z * Z)) (last_pixel : N) (p : pattern) (last_x last_y : Z)
  : res (option finder_pos) :=
  match path with
  | [] => confirm module_size p last_x last_y is_diagonal
  | (x, y) :: path =>
      v <- get_pixel g x y ;;
      if N.eqb v last_pixel then
        p <- pattern_inc p ;;
        refine_loop g module_size is_diagonal path last_pixel p x y
      else
        r <- confirm module_size p x y is_diagonal ;;
        match r with
        | Some f => Ok (Some f)
        | None =>
            p <- slide p ;;
            refine_loop g module_size is_diagonal path v p x y
        end
  end.

(** linescan.rs:296-358 `refine` *)
Definition refine (g : gray) (module_size : f64) (path : list (Z * Z))
  (is_diagonal : bool) : res (option finder_pos) :=
  refine_loop g module_size is_diagonal path 127%N pattern_new 0 0.

(** linescan.rs:212-230 *)
Definition refine_horizontal (g : gray) (finder : point) (module_size : f64) :=
  let start_x := round_u32 (fmax0 (fsub (px finder) (fmul (of_Z 5) module_size))) in
  let end_x := Z.min (round_u32 (fadd (px finder) (fmul (of_Z 5) module_size))) (gw g) in
  refine g module_size
         (map (fun x => (x, round_u32 (py finder))) (zrange start_x end_x)) false.

(** linescan.rs:233-251 *)
Definition refine_vertical (g : gray) (finder : point) (module_size : f64) :=
  let start_y := round_u32 (fmax0 (fsub (py finder) (fmul (of_Z 5) module_size))) in
  let end_y := Z.min (round_u32 (fadd (py finder) (fmul (of_Z 5) module_size))) (gh g) in
  refine g module_size
         (map (fun y => (round_u32 (px finder), y)) (zrange start_y end_y)) false.

(** linescan.rs:266-279: where the diagonal starts *)
Definition diagonal_start (finder : point) (side : f64) : f64 * f64 :=
  let zero := of_Z 0 in
  if flt (px finder) side && flt (py finder) side then
    if flt (px finder) (py finder) then (zero, fsub (py finder) (px finder))
    else (fsub (px finder) (py finder), zero)
  else if flt (px finder) side then (zero, fsub (py finder) (px finder))
  else if flt (py finder) side then (fsub (px finder) (py finder), zero)
  else (fsub (px finder) side, fsub (py finder) side).

(** linescan.rs:254-294 *)
Definition refine_diagonal (g : gray) (finder : point) (module_size : f64) :=
  let side := fmul (of_Z 5) module_size in
  let '(start_x, start_y) := diagonal_start finder side in
  let range_x := zrange (round_u32 start_x)
    (Z.min (round_u32 (fadd (px finder) (fmul (of_Z 5) module_size))) (gw g)) in
  let range_y := zrange (round_u32 start_y)
    (Z.min (round_u32 (fadd (py finder) (fmul (of_Z 5) module_size))) (gh g)) in
  refine g module_size (combine range_x range_y) true.

(** linescan.rs:104-112: adjust the candidate after a non-diagonal refinement *)
Definition adjust (vert : finder_pos) (dx dy : f64) : point * f64 :=
  let half_finder := fmul (lit 7 2) (fp_last vert) in
  (Pt (fsub (px (fp_location vert)) (fmul dx half_finder))
      (fsub (py (fp_location vert)) (fmul dy half_finder)),
   fp_module_size vert).

(** linescan.rs:94-113 with the list of 39-43: vertical, horizontal, diagonal.
    [None] is `continue 'pixels`. *)
Definition refine_all (g : gray) (finder : point) (module_size : f64)
  : res (option (point * f64)) :=
  v <- refine_vertical g finder module_size ;;
  match v with
  | None => Ok None
  | Some v =>
      let '(finder, module_size) := adjust v (of_Z 0) (of_Z 1) in
      h <- refine_horizontal g finder module_size ;;
      match h with
      | None => Ok None
      | Some h =>
          let '(finder, module_size) := adjust h (of_Z 1) (of_Z 0) in
          d <- refine_diagonal g finder module_size ;;
          match d with
          | None => Ok None
          | Some _ => Ok (Some (finder, module_size))
          end
      end
  end.

(** loop state of linescan.rs:45-48 *)
Record scan_state := Scan {
  sc_candidates : list finder_pos;
  sc_last : N;
  sc_pattern : pattern
}.

(** linescan.rs:74-123: a run pattern that looks like a finder ends at (x, y) *)
Definition scan_found (g : gray) (candidates : list finder_pos) (p : pattern) (x y : Z)
  : res (list finder_pos) :=
  module_size <- est_mod_size p ;;
  let finder := Pt (fsub (of_Z x) (fmul module_size (lit 7 2))) (of_Z y) in
  if existsb (fun c => flt (dist finder (fp_location c)) (fmul (of_Z 7) module_size))
             candidates
  then Ok candidates
  else
    r <- refine_all g finder module_size ;;
    match r with
    | None => Ok candidates
    | Some (finder, module_size) =>
        Ok (candidates ++ [FP finder module_size (of_Z 0)])
    end.

(** linescan.rs:49-123: one iteration of the pixel loop *)
Definition scan_pixel (g : gray) (s : scan_state) (xyp : Z * Z * N) : res scan_state :=
  let '(x, y, v) := xyp in
  let '(last_pixel, p) :=
    if x =? 0 then (127%N, pattern_new) else (sc_last s, sc_pattern s) in
  p <- (if N.eqb v last_pixel then pattern_inc p else Ok p) ;;
  w1 <- (if N.eqb v last_pixel then sub_Z (gw g) 1 else Ok x) ;;
  if N.eqb v last_pixel && negb (x =? w1) then Ok (Scan (sc_candidates s) last_pixel p)
  else
    l <- looks_like_finder p ;;
    candidates <- (if (l : bool) then scan_found g (sc_candidates s) p x y
                   else Ok (sc_candidates s)) ;;
    p <- slide p ;;
    Ok (Scan candidates v p).

(** linescan.rs:45-123 *)
Definition find_candidates (g : gray) : res (list finder_pos) :=
  s <- foldM (scan_pixel g) (enumerate_pixels g) (Scan [] 127%N pattern_new) ;;
  Ok (sc_candidates s).

(** linescan.rs:464-533 `find_qr_internal` *)
Definition find_qr_internal (one two three : point) (module_size : f64)
  : res (option qrloc) :=
  let ax := fsub (px two) (px one) in
  let ay := fsub (py two) (py one) in
  let bx := fsub (px three) (px one) in
  let by_ := fsub (py three) (py one) in
  let cross_product := fopp (fsub (fmul ax by_) (fmul ay bx)) in
  let len_a := fsqrt (fadd (fmul ax ax) (fmul ay ay)) in
  let len_b := fsqrt (fadd (fmul bx bx) (fmul by_ by_)) in
  if fgt (diff len_a len_b) (lit 15 100) then Ok None
  else
    let perpendicular := fdiv (fdiv cross_product len_a) len_b in
    if fgt (fabs (fsub (fabs perpendicular) (of_Z 1))) (lit 5 100) then Ok None
    else
      let estimated_dist := fadd (fdiv (dist one three) module_size) (of_Z 7) in
      let n := round_u32 (fdiv (fsub estimated_dist (of_Z 1)) (of_Z 4)) in
      d <- chk_u32 (4 * n) ;;
      d <- chk_u32 (d + 1) ;;
      if d <? 20 then Ok None
      else
        let version := (d - 17) / 4 in
        if fgt perpendicular (of_Z 0)
        then Ok (Some (mkQRLoc one three two module_size version))
        else Ok (Some (mkQRLoc one two three module_size version)).

(** linescan.rs:453-462 `find_qr` *)
Definition find_qr (one two three : point) (module_size : f64) : res (option qrloc) :=
  r <- find_qr_internal one two three module_size ;;
  match r with
  | Some qr => Ok (Some qr)
  | None =>
      r <- find_qr_internal two one three module_size ;;
      match r with
      | Some qr => Ok (Some qr)
      | None => find_qr_internal three one two module_size
      end
  end.

(** linescan.rs:163-206: all triples of candidates *)
Definition find_locations (candidates : list finder_pos) : res (list qrloc) :=
  let n := length candidates in
  foldM (fun locations c1 =>
    foldM (fun locations c2 =>
      a <- get candidates c1 ;;
      b <- get candidates c2 ;;
      if fgt (diff (fp_module_size a) (fp_module_size b)) (lit 1 10) then Ok locations
      else
        foldM (fun locations c3 =>
          c <- get candidates c3 ;;
          if fgt (diff (fp_module_size a) (fp_module_size c)) (lit 1 10)
          then Ok locations
          else
            r <- find_qr (fp_location a) (fp_location b) (fp_location c)
                         (fp_module_size a) ;;
            match r with
            | Some qr => Ok (locations ++ [qr])
            | None => Ok locations
            end)
          (range (c2 + 1) n) locations)
      (range (c1 + 1) n) locations)
    (range 0 n) [].

(** linescan.rs:35-208 `detect` *)
Definition detect (g : gray) : res (list qrloc) :=
  candidates <- find_candidates g ;;
  find_locations candidates.
