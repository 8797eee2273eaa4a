(** Model of /repo/src/decode/qr/mod.rs: the block structure table, copied from the
    source. *)
From Verif.Model Require Export Base.

(** mod.rs:12-29.  All fields are u8 in Rust. *)
Record block_info_t := BI {
  block_count : nat;
  total_per : nat;
  data_per : nat;
  ec_cap : nat
}.

(** mod.rs:32-656: the `match (version, level)`; [None] is its last arm. *)
Definition block_table (v : Z) (l : eclevel) : option (list block_info_t) :=
  match v with
  | 1%Z => match l with
      | LOW => Some [BI 1 26 19 2]
      | MEDIUM => Some [BI 1 26 16 4]
      | QUARTILE => Some [BI 1 26 13 6]
      | HIGH => Some [BI 1 26 9 8]
      end
  | 2%Z => match l with
      | LOW => Some [BI 1 44 34 4]
      | MEDIUM => Some [BI 1 44 28 8]
      | QUARTILE => Some [BI 1 44 22 11]
      | HIGH => Some [BI 1 44 16 14]
      end
  | 3%Z => match l with
      | LOW => Some [BI 1 70 55 7]
      | MEDIUM => Some [BI 1 70 44 13]
      | QUARTILE => Some [BI 2 35 17 9]
      | HIGH => Some [BI 2 35 13 11]
      end
  | 4%Z => match l with
      | LOW => Some [BI 1 100 80 10]
      | MEDIUM => Some [BI 2 50 32 9]
      | QUARTILE => Some [BI 2 50 24 13]
      | HIGH => Some [BI 4 25 9 8]
      end
  | 5%Z => match l with
      | LOW => Some [BI 1 134 108 13]
      | MEDIUM => Some [BI 2 67 43 12]
      | QUARTILE => Some [BI 2 33 15 9; BI 2 34 16 9]
      | HIGH => Some [BI 2 33 11 11; BI 2 34 12 11]
      end
  | 6%Z => match l with
      | LOW => Some [BI 2 86 68 9]
      | MEDIUM => Some [BI 4 43 27 8]
      | QUARTILE => Some [BI 4 43 19 12]
      | HIGH => Some [BI 4 43 15 14]
      end
  | 7%Z => match l with
      | LOW => Some [BI 2 98 78 10]
      | MEDIUM => Some [BI 4 49 31 9]
      | QUARTILE => Some [BI 2 32 14 9; BI 4 33 15 9]
      | HIGH => Some [BI 4 39 13 13; BI 1 40 14 13]
      end
  | 8%Z => match l with
      | LOW => Some [BI 2 121 97 12]
      | MEDIUM => Some [BI 2 60 38 11; BI 2 61 39 11]
      | QUARTILE => Some [BI 4 40 18 11; BI 2 41 19 11]
      | HIGH => Some [BI 4 40 14 13; BI 2 41 15 13]
      end
  | 9%Z => match l with
      | LOW => Some [BI 2 146 116 15]
      | MEDIUM => Some [BI 3 58 36 11; BI 2 59 37 11]
      | QUARTILE => Some [BI 4 36 16 10; BI 4 37 17 10]
      | HIGH => Some [BI 4 36 12 12; BI 4 37 13 12]
      end
  | 10%Z => match l with
      | LOW => Some [BI 2 86 68 9; BI 2 87 69 9]
      | MEDIUM => Some [BI 4 69 43 13; BI 1 70 44 13]
      | QUARTILE => Some [BI 6 43 19 12; BI 2 44 20 12]
      | HIGH => Some [BI 6 43 15 14; BI 2 44 16 14]
      end
  | 11%Z => match l with
      | LOW => Some [BI 4 101 81 10]
      | MEDIUM => Some [BI 1 80 50 15; BI 4 81 51 15]
      | QUARTILE => Some [BI 4 50 22 14; BI 4 51 23 14]
      | HIGH => Some [BI 3 36 12 12; BI 8 37 13 12]
      end
  | 12%Z => match l with
      | LOW => Some [BI 2 116 92 12; BI 2 117 93 12]
      | MEDIUM => Some [BI 6 58 36 11; BI 2 59 37 11]
      | QUARTILE => Some [BI 4 46 20 13; BI 6 47 21 13]
      | HIGH => Some [BI 7 42 14 14; BI 4 43 15 14]
      end
  | 13%Z => match l with
      | LOW => Some [BI 4 133 107 13]
      | MEDIUM => Some [BI 8 59 37 11; BI 1 60 38 11]
      | QUARTILE => Some [BI 8 44 20 12; BI 4 45 21 12]
      | HIGH => Some [BI 12 33 11 11; BI 4 34 12 11]
      end
  | 14%Z => match l with
      | LOW => Some [BI 3 145 115 15; BI 1 146 116 15]
      | MEDIUM => Some [BI 4 64 40 12; BI 5 65 41 12]
      | QUARTILE => Some [BI 11 36 16 10; BI 5 37 17 10]
      | HIGH => Some [BI 11 36 12 12; BI 5 37 13 12]
      end
  | 15%Z => match l with
      | LOW => Some [BI 5 109 87 11; BI 1 110 88 11]
      | MEDIUM => Some [BI 5 65 41 12; BI 5 66 42 12]
      | QUARTILE => Some [BI 5 54 24 15; BI 7 55 25 15]
      | HIGH => Some [BI 11 36 12 12; BI 7 37 13 12]
      end
  | 16%Z => match l with
      | LOW => Some [BI 5 122 98 12; BI 1 123 99 12]
      | MEDIUM => Some [BI 7 73 45 14; BI 3 74 46 14]
      | QUARTILE => Some [BI 15 43 19 12; BI 2 44 20 12]
      | HIGH => Some [BI 3 45 15 15; BI 13 46 16 15]
      end
  | 17%Z => match l with
      | LOW => Some [BI 1 135 107 14; BI 5 136 108 14]
      | MEDIUM => Some [BI 10 74 46 14; BI 1 75 47 14]
      | QUARTILE => Some [BI 1 50 22 14; BI 15 51 23 14]
      | HIGH => Some [BI 2 42 14 14; BI 17 43 15 14]
      end
  | 18%Z => match l with
      | LOW => Some [BI 5 150 120 15; BI 1 151 121 15]
      | MEDIUM => Some [BI 9 69 43 13; BI 4 70 44 13]
      | QUARTILE => Some [BI 17 50 22 14; BI 1 51 23 14]
      | HIGH => Some [BI 2 42 14 14; BI 19 43 15 14]
      end
  | 19%Z => match l with
      | LOW => Some [BI 3 141 113 14; BI 4 142 114 14]
      | MEDIUM => Some [BI 3 70 44 13; BI 11 71 45 13]
      | QUARTILE => Some [BI 17 47 21 13; BI 4 48 22 13]
      | HIGH => Some [BI 9 39 13 13; BI 16 40 14 13]
      end
  | 20%Z => match l with
      | LOW => Some [BI 3 135 107 14; BI 5 136 108 14]
      | MEDIUM => Some [BI 3 67 41 13; BI 13 68 42 13]
      | QUARTILE => Some [BI 15 54 24 15; BI 5 55 25 15]
      | HIGH => Some [BI 15 43 15 14; BI 10 44 16 14]
      end
  | 21%Z => match l with
      | LOW => Some [BI 4 144 116 14; BI 4 145 117 14]
      | MEDIUM => Some [BI 17 68 42 13]
      | QUARTILE => Some [BI 17 50 22 14; BI 6 51 23 14]
      | HIGH => Some [BI 19 46 16 15; BI 6 47 17 15]
      end
  | 22%Z => match l with
      | LOW => Some [BI 2 139 111 14; BI 7 140 112 14]
      | MEDIUM => Some [BI 17 74 46 14]
      | QUARTILE => Some [BI 7 54 24 15; BI 16 55 25 15]
      | HIGH => Some [BI 34 37 13 12]
      end
  | 23%Z => match l with
      | LOW => Some [BI 4 151 121 15; BI 5 152 122 15]
      | MEDIUM => Some [BI 4 75 47 14; BI 14 76 48 14]
      | QUARTILE => Some [BI 11 54 24 15; BI 14 55 25 15]
      | HIGH => Some [BI 16 45 15 15; BI 14 46 16 15]
      end
  | 24%Z => match l with
      | LOW => Some [BI 6 147 117 15; BI 4 148 118 15]
      | MEDIUM => Some [BI 6 73 45 14; BI 14 74 46 14]
      | QUARTILE => Some [BI 11 54 24 15; BI 16 55 25 15]
      | HIGH => Some [BI 30 46 16 15; BI 2 47 17 15]
      end
  | 25%Z => match l with
      | LOW => Some [BI 8 132 106 13; BI 4 133 107 13]
      | MEDIUM => Some [BI 8 75 47 14; BI 13 76 48 14]
      | QUARTILE => Some [BI 7 54 24 15; BI 22 55 25 15]
      | HIGH => Some [BI 22 45 15 15; BI 13 46 16 15]
      end
  | 26%Z => match l with
      | LOW => Some [BI 10 142 114 14; BI 2 143 115 14]
      | MEDIUM => Some [BI 19 74 46 14; BI 4 75 47 14]
      | QUARTILE => Some [BI 28 50 22 14; BI 6 51 23 14]
      | HIGH => Some [BI 33 46 16 15; BI 4 47 17 15]
      end
  | 27%Z => match l with
      | LOW => Some [BI 8 152 122 15; BI 4 153 123 15]
      | MEDIUM => Some [BI 22 73 45 14; BI 3 74 46 14]
      | QUARTILE => Some [BI 8 53 23 15; BI 26 54 24 15]
      | HIGH => Some [BI 12 45 15 15; BI 28 46 16 15]
      end
  | 28%Z => match l with
      | LOW => Some [BI 3 147 117 15; BI 10 148 118 15]
      | MEDIUM => Some [BI 3 73 45 14; BI 23 74 46 14]
      | QUARTILE => Some [BI 4 54 24 15; BI 31 55 25 15]
      | HIGH => Some [BI 11 45 15 15; BI 31 46 16 15]
      end
  | 29%Z => match l with
      | LOW => Some [BI 7 146 116 15; BI 7 147 117 15]
      | MEDIUM => Some [BI 21 73 45 14; BI 7 74 46 14]
      | QUARTILE => Some [BI 1 53 23 15; BI 37 54 24 15]
      | HIGH => Some [BI 19 45 15 15; BI 26 46 16 15]
      end
  | 30%Z => match l with
      | LOW => Some [BI 5 145 115 15; BI 10 146 116 15]
      | MEDIUM => Some [BI 19 75 47 14; BI 10 76 48 14]
      | QUARTILE => Some [BI 15 54 24 15; BI 25 55 25 15]
      | HIGH => Some [BI 23 45 15 15; BI 25 46 16 15]
      end
  | 31%Z => match l with
      | LOW => Some [BI 13 145 115 15; BI 3 146 116 15]
      | MEDIUM => Some [BI 2 74 46 14; BI 29 75 47 14]
      | QUARTILE => Some [BI 42 54 24 15; BI 1 55 25 15]
      | HIGH => Some [BI 23 45 15 15; BI 28 46 16 15]
      end
  | 32%Z => match l with
      | LOW => Some [BI 17 145 115 15]
      | MEDIUM => Some [BI 10 74 46 14; BI 23 75 47 14]
      | QUARTILE => Some [BI 10 54 24 15; BI 35 55 25 15]
      | HIGH => Some [BI 19 45 15 15; BI 35 46 16 15]
      end
  | 33%Z => match l with
      | LOW => Some [BI 17 145 115 15; BI 1 146 116 15]
      | MEDIUM => Some [BI 14 74 46 14; BI 21 75 47 14]
      | QUARTILE => Some [BI 29 54 24 15; BI 19 55 25 15]
      | HIGH => Some [BI 11 45 15 15; BI 46 46 16 15]
      end
  | 34%Z => match l with
      | LOW => Some [BI 13 145 115 15; BI 6 146 116 15]
      | MEDIUM => Some [BI 14 74 46 14; BI 23 75 47 14]
      | QUARTILE => Some [BI 44 54 24 15; BI 7 55 25 15]
      | HIGH => Some [BI 59 46 16 15; BI 1 47 17 15]
      end
  | 35%Z => match l with
      | LOW => Some [BI 12 151 121 15; BI 7 152 122 15]
      | MEDIUM => Some [BI 12 75 47 14; BI 26 76 48 14]
      | QUARTILE => Some [BI 39 54 24 15; BI 14 55 25 15]
      | HIGH => Some [BI 22 45 15 15; BI 41 46 16 15]
      end
  | 36%Z => match l with
      | LOW => Some [BI 6 151 121 15; BI 14 152 122 15]
      | MEDIUM => Some [BI 6 75 47 14; BI 34 76 48 14]
      | QUARTILE => Some [BI 46 54 24 15; BI 10 55 25 15]
      | HIGH => Some [BI 2 45 15 15; BI 64 46 16 15]
      end
  | 37%Z => match l with
      | LOW => Some [BI 17 152 122 15; BI 4 153 123 15]
      | MEDIUM => Some [BI 29 74 46 14; BI 14 75 47 14]
      | QUARTILE => Some [BI 49 54 24 15; BI 10 55 25 15]
      | HIGH => Some [BI 24 45 15 15; BI 46 46 16 15]
      end
  | 38%Z => match l with
      | LOW => Some [BI 4 152 122 15; BI 18 153 123 15]
      | MEDIUM => Some [BI 13 74 46 14; BI 32 75 47 14]
      | QUARTILE => Some [BI 48 54 24 15; BI 14 55 25 15]
      | HIGH => Some [BI 42 45 15 15; BI 32 46 16 15]
      end
  | 39%Z => match l with
      | LOW => Some [BI 20 147 117 15; BI 4 148 118 15]
      | MEDIUM => Some [BI 40 75 47 14; BI 7 76 48 14]
      | QUARTILE => Some [BI 43 54 24 15; BI 22 55 25 15]
      | HIGH => Some [BI 10 45 15 15; BI 67 46 16 15]
      end
  | 40%Z => match l with
      | LOW => Some [BI 19 148 118 15; BI 6 149 119 15]
      | MEDIUM => Some [BI 18 75 47 14; BI 31 76 48 14]
      | QUARTILE => Some [BI 34 54 24 15; BI 34 55 25 15]
      | HIGH => Some [BI 20 45 15 15; BI 61 46 16 15]
      end
  | _ => None
  end.

(** mod.rs:665-671: repeat each entry [block_count] times *)
Definition unwind (bis : list block_info_t) : list block_info_t :=
  flat_map (fun bi => repeat bi (block_count bi)) bis.

(** mod.rs:31-674 `block_info` *)
Definition block_info (v : Z) (l : eclevel) : res (list block_info_t) :=
  match block_table v l with
  | Some bis => Ok (unwind bis)
  | None => Err (EVersionLevel v l)
  end.
