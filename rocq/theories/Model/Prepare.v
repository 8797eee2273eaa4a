(** Model of /repo/src/prepare/blockedmean.rs.  It starts from the grayscale image:
    `image::imageops::grayscale` (line 37) belongs to the image crate.

    The `mean` of a block (line 77) is never read, so a block is a pair of its total and
    count.  Totals and counts are u64 in Rust; their additions are unchecked here, an
    image has far fewer than 2^56 pixels. *)
From Verif.Model Require Export Float.
Open Scope Z_scope.

(** blockedmean.rs:15-18 *)
Record blocked_mean := BlockedMean { block_size : Z; block_mean_size : Z }.

(** blockedmean.rs:205-211: u32 division *)
Definition div_u32 (a b : Z) : res Z :=
  if b =? 0 then Panic PDivZero else Ok (a / b).

(** blockedmean.rs:172-181 `as_block_coords` *)
Definition as_block_coords (x y bs : Z) : res (Z * Z) :=
  bx <- div_u32 x bs ;; by_ <- div_u32 y bs ;; Ok (bx, by_).

(** blockedmean.rs:167-169 `to_index` *)
Definition to_index (cx cy width : Z) : res nat :=
  w1 <- chk_u32 (width + 1) ;;
  r <- chk_u32 (cy * w1) ;;
  i <- chk_u32 (r + cx) ;;
  Ok (Z.to_nat i).

(** blockedmean.rs:65 and 98: number of blocks *)
Definition block_total (bw bh : Z) : res Z :=
  w1 <- chk_u32 (bw + 1) ;; h1 <- chk_u32 (bh + 1) ;; chk_u32 (w1 * h1).

(** blockedmean.rs:51-81 `as_block_map` *)
Definition as_block_map (cfg : blocked_mean) (g : gray) : res (list (Z * Z)) :=
  '(bw, bh) <- as_block_coords (gw g) (gh g) (block_size cfg) ;;
  n <- block_total bw bh ;;
  foldM (fun blocks '(x, y, p) =>
           '(cx, cy) <- as_block_coords x y (block_size cfg) ;;
           i <- to_index cx cy bw ;;
           '(total, count) <- get blocks i ;;
           set blocks i (total + Z.of_N p, count + 1))
        (enumerate_pixels g) (repeat (0, 0) (Z.to_nat n)).

(** blockedmean.rs:238-243 `range`: up to `end.0 - 1`, inclusive *)
Definition brange (start end_ : Z) : res (list Z) :=
  e <- sub_Z end_ 1 ;; Ok (zrange start (e + 1)).
(** blockedmean.rs:245-250 `range_inc` *)
Definition brange_inc (start end_ : Z) : list Z := zrange start (end_ + 1).

(** u32::saturating_sub (blockedmean.rs:214-216) *)
Definition saturating_sub (a b : Z) : Z := Z.max 0 (a - b).

(** blockedmean.rs:104-124: total and count over the window of one block *)
Definition window (blocks : list (Z * Z)) (bw bh stride bx by_ : Z) : res (Z * Z) :=
  let x_start := Z.max 0 (saturating_sub bx stride) in
  xs <- chk_u32 (bx + stride) ;;
  let x_end := Z.min bw xs in
  let y_start := Z.max 0 (saturating_sub by_ stride) in
  ys <- chk_u32 (by_ + stride) ;;
  let y_end := Z.min bh ys in
  rx <- brange x_start x_end ;;
  foldM (fun acc x =>
           ry <- brange y_start y_end ;;
           foldM (fun '(total, count) y =>
                    i <- to_index x y bw ;;
                    '(t, c) <- get blocks i ;;
                    Ok (total + t, count + c))
                 ry acc)
        rx (0, 0).

(** blockedmean.rs:83-129 `to_block_mean_map`.  Only the means of the result are used. *)
Definition to_block_mean_map (cfg : blocked_mean) (blocks : list (Z * Z)) (w h : Z)
  : res (list f64) :=
  m1 <- sub_Z (block_mean_size cfg) 1 ;;
  let stride := m1 / 2 in
  '(bw, bh) <- as_block_coords w h (block_size cfg) ;;
  n <- block_total bw bh ;;
  foldM (fun means bx =>
           foldM (fun means by_ =>
                    '(total, count) <- window blocks bw bh stride bx by_ ;;
                    i <- to_index bx by_ bw ;;
                    set means i (fdiv (of_Z total) (of_Z count)))
                 (brange_inc 0 bh) means)
        (brange_inc 0 bw) (repeat (of_Z 0) (Z.to_nat n)).

(** blockedmean.rs:144-152: the threshold decision *)
Definition threshold (mean : f64) (p : N) : N :=
  if fgt mean (of_Z 250) then 255%N
  else if flt mean (of_Z 5) then 0%N
  else if fgt (of_Z (Z.of_N p)) mean then 255%N
  else 0%N.

(** blockedmean.rs:131-156 `to_threshold` *)
Definition to_threshold (cfg : blocked_mean) (g : gray) (means : list f64) : res gray :=
  buf <- mapM (fun '(x, y, p) =>
                 '(bw, _) <- as_block_coords (gw g) (gh g) (block_size cfg) ;;
                 '(cx, cy) <- as_block_coords x y (block_size cfg) ;;
                 i <- to_index cx cy bw ;;
                 mean <- get means i ;;
                 Ok (threshold mean p))
              (enumerate_pixels g) ;;
  Ok (Gray (gw g) (gh g) buf).

(** blockedmean.rs:35-48 `prepare` *)
Definition prepare (cfg : blocked_mean) (g : gray) : res gray :=
  block_map <- as_block_map cfg g ;;
  means <- to_block_mean_map cfg block_map (gw g) (gh g) ;;
  to_threshold cfg g means.

(** decoder.rs:165 *)
Definition default_prepare : blocked_mean := BlockedMean 5 7.
