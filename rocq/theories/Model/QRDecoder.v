(** Model of /repo/src/decode/qr/decoder.rs. *)
From Verif.Model Require Export Data Format Blocks Correct.

(** decoder.rs:35-43: correct the blocks one by one and collect their data parts *)
Definition collect (pairs : list (list N * block_info_t)) : res (list N) :=
  foldM (fun all_blocks '(block, bi) =>
           corrected <- correct block bi ;;
           Ok (all_blocks ++ firstn (data_per bi) corrected))
        pairs [].

(** decoder.rs:26-49 `QRDecoder::decode` *)
Definition qr_decode (data_in : res qrdata) : res (list N) :=
  q <- data_in ;;
  '(level, m) <- format q ;;
  blks <- blocks q level m ;;
  bi <- block_info (qversion q) level ;;
  all_blocks <- collect (combine blks bi) ;;
  data all_blocks (qversion q).

(** decoder.rs:76-84 *)
Definition collect_with_info (pairs : list (list N * block_info_t))
  : res (list N * N) :=
  foldM (fun '(all_blocks, total_errors) '(block, bi) =>
           '(corrected, error_count) <- correct_with_error_count block bi ;;
           Ok (all_blocks ++ firstn (data_per bi) corrected,
               N.add total_errors error_count))
        pairs ([], 0%N).

(** decoder.rs:64-98 `QRDecoderWithInfo::decode` *)
Definition qr_decode_with_info (data_in : res qrdata) : res (list N * qrinfo) :=
  q <- data_in ;;
  '(level, m) <- format q ;;
  blks <- blocks q level m ;;
  bi <- block_info (qversion q) level ;;
  '(all_blocks, total_errors) <- collect_with_info (combine blks bi) ;;
  let total_data := N.mul (N.of_nat (length all_blocks)) 8 in
  text <- data all_blocks (qversion q) ;;
  Ok (text, mkQRInfo (qversion q) level total_data total_errors).
