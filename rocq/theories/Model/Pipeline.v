(** Model of /repo/src/decoder.rs.  A component (a boxed trait object) is the function
    it implements. *)
From Verif.Model Require Export Prepare Detect Extract QRDecoder.

(** decoder.rs:12-16 and 195-198; detect/mod.rs: [Location] has the one case QR *)
Record decoder (IMG PREPD RESULT : Type) := mkDecoder {
  d_prepare : IMG -> res PREPD;
  d_detect : PREPD -> res (list qrloc);
  d_extract : PREPD -> qrloc -> res qrdata;
  d_decode : res qrdata -> res RESULT
}.
Arguments mkDecoder {IMG PREPD RESULT}.
Arguments d_prepare {IMG PREPD RESULT}.
Arguments d_detect {IMG PREPD RESULT}.
Arguments d_extract {IMG PREPD RESULT}.
Arguments d_decode {IMG PREPD RESULT}.

(** One entry of the result vector: `Result<RESULT, anyhow::Error>`.  `Error::from`
    wraps the error unchanged. *)
Definition entry (RESULT : Type) : Type := RESULT + qrerror.

(** decoder.rs:38-41: `let extracted = …` runs first, so its panic comes first *)
Definition decode_one {IMG PREPD RESULT} (d : decoder IMG PREPD RESULT)
  (prepared : PREPD) (loc : qrloc) : res (entry RESULT) :=
  match d_extract d prepared loc with
  | Panic p => Panic p
  | extracted =>
      match d_decode d extracted with
      | Ok r => Ok (inl r)
      | Err e => Ok (inr e)
      | Panic p => Panic p
      end
  end.

(** decoder.rs:25-47 `Decoder::decode` *)
Definition decode {IMG PREPD RESULT} (d : decoder IMG PREPD RESULT) (source : IMG)
  : res (list (entry RESULT)) :=
  prepared <- d_prepare d source ;;
  locations <- d_detect d prepared ;;
  match locations with
  | [] => Ok []
  | _ =>
      foldM (fun all_decoded location =>
               r <- decode_one d prepared location ;; Ok (all_decoded ++ [r]))
            locations []
  end.

(** decoder.rs:86-90 *)
Record builder (IMG PREPD RESULT : Type) := mkBuilder {
  b_prepare : option (IMG -> res PREPD);
  b_detect : option (PREPD -> res (list qrloc));
  b_qr : option ((PREPD -> qrloc -> res qrdata) * (res qrdata -> res RESULT))
}.
Arguments mkBuilder {IMG PREPD RESULT}.
Arguments b_prepare {IMG PREPD RESULT}.
Arguments b_detect {IMG PREPD RESULT}.
Arguments b_qr {IMG PREPD RESULT}.

Section Builder.
Context {IMG PREPD RESULT : Type}.
Implicit Type b : builder IMG PREPD RESULT.

(** decoder.rs:94-100 *)
Definition builder_new : builder IMG PREPD RESULT := mkBuilder None None None.
(** decoder.rs:103-109 *)
Definition builder_prepare b f : builder IMG PREPD RESULT := mkBuilder (Some f) (b_detect b) (b_qr b).
(** decoder.rs:112-118 *)
Definition builder_detect b f : builder IMG PREPD RESULT := mkBuilder (b_prepare b) (Some f) (b_qr b).
(** decoder.rs:121-128 *)
Definition builder_qr b ex de : builder IMG PREPD RESULT :=
  mkBuilder (b_prepare b) (b_detect b) (Some (ex, de)).

(** decoder.rs:135-149 `build` *)
Definition build b : res (decoder IMG PREPD RESULT) :=
  match b_prepare b with
  | None => Panic PMissing
  | Some p =>
      match b_detect b with
      | None => Panic PMissing
      | Some de =>
          '(ex, dc) <- unwrap (b_qr b) ;;
          Ok (mkDecoder p de ex dc)
      end
  end.
End Builder.

(** decoder.rs:162-170 and 182-193.  [to_gray] stands for `image::imageops::grayscale`. *)
Definition default_builder {D : Type} (to_gray : D -> gray) : builder D gray (list N) :=
  let db := builder_new in
  let db := builder_prepare db (fun d => prepare default_prepare (to_gray d)) in
  let db := builder_detect db detect in
  builder_qr db extract qr_decode.

Definition default_builder_with_info {D : Type} (to_gray : D -> gray)
  : builder D gray (list N * qrinfo) :=
  let db := builder_new in
  let db := builder_prepare db (fun d => prepare default_prepare (to_gray d)) in
  let db := builder_detect db detect in
  builder_qr db extract qr_decode_with_info.

(** decoder.rs:60-62 and 74-76 *)
Definition default_decoder {D : Type} (to_gray : D -> gray) := build (default_builder to_gray).
Definition default_decoder_with_info {D : Type} (to_gray : D -> gray) :=
  build (default_builder_with_info to_gray).
