(** Model of /repo/src/extract/qr/mod.rs, without the `debug-images` feature. *)
From Verif.Model Require Export Detect QR.
Open Scope Z_scope.

(** the pixel at a rounded point: `get_pixel(p.x.round() as u32, p.y.round() as u32)[0]` *)
Definition pixel_at (g : gray) (p : point) : res N :=
  get_pixel g (round_u32 (px p)) (round_u32 (py p)).

(** a list of conditions checked in order; the first that fails gives false *)
Fixpoint all_ok (l : list (res bool)) : res bool :=
  match l with
  | [] => Ok true
  | c :: l => b <- c ;; if (b : bool) then all_ok l else Ok false
  end.

Definition not_white (g : gray) (p : point) : res bool :=
  v <- pixel_at g p ;; Ok (negb (N.eqb v 255)).
Definition not_black (g : gray) (p : point) : res bool :=
  v <- pixel_at g p ;; Ok (negb (N.eqb v 0)).

(** extract/qr/mod.rs:281-378 `is_alignment` *)
Definition is_alignment (g : gray) (p : point) (dx dy : delta) (scale : f64) : res bool :=
  let zero := of_Z 0 in
  let two := of_Z 2 in
  if flt (px p) zero || flt (py p) zero then Ok false
  else
    let dx := dmul scale dx in
    let dy := dmul scale dy in
    let top_left := psub (psub p (dmul two dx)) (dmul two dy) in
    if flt (px top_left) zero || flt (py top_left) zero then Ok false
    else
      let bottom_right := padd (padd p (dmul two dx)) (dmul two dy) in
      if fge (fround (px bottom_right)) (of_Z (gw g))
         || fge (fround (py bottom_right)) (of_Z (gh g)) then Ok false
      else
        b <- all_ok
          (flat_map (fun x =>
             [not_white g (psub (psub p (dmul (of_Z x) dx)) (dmul two dy));
              not_white g (padd (psub p (dmul (of_Z x) dx)) (dmul two dy))])
             [-2; -1; 0; 1]
           ++ flat_map (fun y =>
             [not_white g (psub (psub p (dmul two dx)) (dmul (of_Z y) dy));
              not_white g (psub (padd p (dmul two dx)) (dmul (of_Z y) dy));
              not_black g (psub (psub p dx) (dmul (of_Z y) dy));
              not_black g (padd (psub p dx) (dmul (of_Z y) dy))])
             [-1; 0]
           ++ [not_black g (psub p dy); not_black g (padd p dy)]) ;;
        if (b : bool) then v <- pixel_at g p ;; Ok (N.eqb v 0) else Ok false.

(** extract/qr/mod.rs:380-386 `Perspective` *)
Record perspective := Persp { pdx : delta; pddx : delta; pdy : delta; pddy : delta }.

Definition no_delta : delta := Dl (of_Z 0) (of_Z 0).

(** extract/qr/mod.rs:125-128 and 265-268 *)
Definition estimate (loc : qrloc) (dx dy : delta) (size10 : Z) : point :=
  let three := of_Z 3 in
  Pt (px (padd (psub (top_right loc) (dmul three dx)) (dmul (of_Z size10) dy)))
     (py (psub (padd (bottom_left loc) (dmul (of_Z size10) dx)) (dmul three dy))).

(** extract/qr/mod.rs:132-177: the points tried, with their scale, in order *)
Definition half (n : Z) : f64 := fdiv (of_Z n) (of_Z 2).
Definition search_points (est : point) (dx dy : delta) : list (f64 * point) :=
  flat_map (fun i =>
    flat_map (fun j =>
      let scale := fadd (of_Z 1) (fdiv (of_Z j) (of_Z 10)) in
      if i =? 0 then [(scale, est)]
      else
        flat_map (fun x =>
          [(scale, psub (padd est (dmul (half x) dx)) (dmul (half i) dy));
           (scale, padd (padd est (dmul (half x) dx)) (dmul (half i) dy))])
          (zrange (- i) (i + 1))
        ++ flat_map (fun y =>
          [(scale, padd (psub est (dmul (half i) dx)) (dmul (half y) dy));
           (scale, padd (padd est (dmul (half i) dx)) (dmul (half y) dy))])
          (zrange (- i + 1) i))
      [0; 1; -1; 2; -2; 3])
    (zrange 0 4).

(** the first point accepted by `is_alignment` *)
Fixpoint find_alignment (g : gray) (dx dy : delta) (l : list (f64 * point))
  : res (option point) :=
  match l with
  | [] => Ok None
  | (scale, p) :: l =>
      b <- is_alignment g p dx dy scale ;;
      if (b : bool) then Ok (Some p) else find_alignment g dx dy l
  end.

(** the four scans of extract/qr/mod.rs:189-223: the first position of the list whose
    pixel is white, or the default *)
Fixpoint first_white (pixel : Z -> res N) (l : list Z) (default : Z) : res Z :=
  match l with
  | [] => Ok default
  | c :: l => v <- pixel c ;; if N.eqb v 255 then Ok c else first_white pixel l default
  end.

(** extract/qr/mod.rs:185-226: centre the alignment pattern *)
Definition centre_alignment (g : gray) (est : point) : res point :=
  let al_x := round_u32 (px est) in
  let al_y := round_u32 (py est) in
  left_x <- first_white (fun x => get_pixel g x al_y) (rev (zrange 0 al_x)) 0 ;;
  right_x <- first_white (fun x => get_pixel g x al_y) (zrange al_x (gw g)) (gw g) ;;
  let ex := fdiv (fadd (of_Z left_x) (of_Z right_x)) (of_Z 2) in
  let al_x := round_u32 ex in
  let al_y := round_u32 (py est) in
  top_y <- first_white (fun y => get_pixel g al_x y) (rev (zrange 0 al_y)) 0 ;;
  bottom_y <- first_white (fun y => get_pixel g al_x y) (zrange al_y (gh g)) (gh g) ;;
  Ok (Pt ex (fdiv (fadd (of_Z top_y) (of_Z bottom_y)) (of_Z 2))).

(** extract/qr/mod.rs:104-279 `determine_perspective` *)
Definition determine_perspective (g : gray) (version size : Z) (loc : qrloc)
  : res perspective :=
  size7 <- sub_Z size 7 ;;
  let dx := ddiv (pdiff (top_right loc) (top_left loc)) (of_Z size7) in
  let dy := ddiv (pdiff (bottom_left loc) (top_left loc)) (of_Z size7) in
  if version =? 1 then Ok (Persp dx no_delta dy no_delta)
  else
    size10 <- sub_Z size 10 ;;
    let est := estimate loc dx dy size10 in
    found <- find_alignment g dx dy (search_points est dx dy) ;;
    match found with
    | None => Err ENoAlignmentPattern
    | Some p =>
        al <- centre_alignment g p ;;
        let orig := estimate loc dx dy size10 in
        sq <- chk_u32 (size10 * size10) ;;
        Ok (Persp dx (ddiv (pdiff al orig) (of_Z sq)) dy no_delta)
    end.

(** extract/qr/mod.rs:57-75: one row of samples *)
Fixpoint sample_row (n : nat) (g : gray) (line : point) (dx : delta) (data : list N)
  : res (list N) :=
  match n with
  | O => Ok data
  | S n =>
      pixel <- get_pixel g (round_u32 (px line)) (round_u32 (py line)) ;;
      sample_row n g (padd line dx) dx (data ++ [pixel])
  end.

(** extract/qr/mod.rs:54-80 *)
Fixpoint sample_rows (n : nat) (cols : nat) (g : gray) (p : perspective)
  (start : point) (dx dy : delta) (data : list N) : res (list N) :=
  match n with
  | O => Ok data
  | S n =>
      let line := psub start (dmul (of_Z 3) dx) in
      data <- sample_row cols g line dx data ;;
      sample_rows n cols g p (padd start dy) (dadd dx (pddx p)) (dadd dy (pddy p)) data
  end.

(** extract/qr/mod.rs:34-102 `extract` *)
Definition extract (g : gray) (loc : qrloc) : res qrdata :=
  v4 <- chk_u32 (version loc * 4) ;;
  size <- chk_u32 (17 + v4) ;;
  p <- determine_perspective g (version loc) size loc ;;
  let three := of_Z 3 in
  let start := psub (psub (top_left loc) (dmul three (pdy p))) (dmul three (pddy p)) in
  let dy := dsub (pdy p) (dmul three (pddy p)) in
  let dx := dsub (pdx p) (dmul three (pddx p)) in
  data <- sample_rows (Z.to_nat size) (Z.to_nat size) g p start dx dy [] ;;
  qrdata_new data (version loc).
