(** Model of the data types of /repo/src/util/qr.rs that the decoding stage uses. *)
From Verif.Model Require Export Base.
Open Scope Z_scope.

(** util/qr.rs:46-56 *)
Record qrdata := mkQRData {
  qdata : list N;
  qversion : Z;
  qside : Z
}.

(** util/qr.rs:60-66 `QRData::new`; panics when 4 * version + 17 leaves u32 *)
Definition qrdata_new (data : list N) (version : Z) : res qrdata :=
  m <- chk_u32 (4 * version) ;;
  side <- chk_u32 (m + 17) ;;
  Ok (mkQRData data version side).

(** util/qr.rs:72-79 `Index<[u32; 2]>`, with x = index[0] and y = index[1] *)
Definition qindex (q : qrdata) (x y : Z) : res N :=
  pixel <- get (qdata q) (Z.to_nat (y * qside q + x)) ;;
  Ok (if N.eqb pixel 0 then 1%N else 0%N).

(** util/qr.rs:100-114 *)
Record qrinfo := mkQRInfo {
  iversion : Z;
  iec_level : eclevel;
  itotal_data : N;
  ierrors : N
}.
