(** * Model of _Compressor (netomaton/state.py:325-352): msgpack.packb / msgpack.unpackb.

    msgpack 1.0.2 is a dependency; the wire format below is its specification. [packb(obj)] uses
    use_bin_type=True, strict_types=False and the recursion limit 511; [unpackb(b, strict_map_key=False)]
    uses raw=False, use_list=True and a stack of 1024 levels. A byte is an integer in 0..255. *)
From Verif Require Import Py.
From Coq Require Import Ascii.
Open Scope list_scope.
Open Scope Z_scope.

(** Python values that reach the compressor. A float is its 64-bit pattern; a str is its UTF-8 encoding. *)
Inductive val :=
| VNone
| VBool (b : bool)
| VInt (z : Z)
| VFloat (bits : Z)
| VStr (s : string)
| VBytes (s : string)
| VList (l : list val)
| VTuple (l : list val)
| VMap (m : list (val * val)).

(** big-endian, [k] bytes *)
Fixpoint be (k : nat) (z : Z) : list Z :=
  match k with
  | O => []
  | S k' => be k' (z / 256) ++ [z mod 256]
  end.

Definition unbe (bs : list Z) : Z := fold_left (fun acc b => acc * 256 + b) bs 0.

Definition bytes_of_string (s : string) : list Z := map (fun c => Z.of_N (N_of_ascii c)) (list_ascii_of_string s).
Definition string_of_bytes (bs : list Z) : string := string_of_list_ascii (map (fun b => ascii_of_N (Z.to_N b)) bs).

(** ** Packer *)

Definition pack_int (z : Z) : res (list Z) :=
  if (0 <=? z) then
    if z <? 128 then Ok [z]
    else if z <? 256 then Ok (204 :: be 1 z)
    else if z <? 2 ^ 16 then Ok (205 :: be 2 z)
    else if z <? 2 ^ 32 then Ok (206 :: be 4 z)
    else if z <? 2 ^ 64 then Ok (207 :: be 8 z)
    else Err OverflowError
  else
    if -32 <=? z then Ok [z + 256]
    else if -128 <=? z then Ok (208 :: be 1 (z + 2 ^ 8))
    else if - 2 ^ 15 <=? z then Ok (209 :: be 2 (z + 2 ^ 16))
    else if - 2 ^ 31 <=? z then Ok (210 :: be 4 (z + 2 ^ 32))
    else if - 2 ^ 63 <=? z then Ok (211 :: be 8 (z + 2 ^ 64))
    else Err OverflowError.

Definition pack_str_header (n : Z) : res (list Z) :=
  if n <? 32 then Ok [160 + n]
  else if n <? 2 ^ 8 then Ok (217 :: be 1 n)
  else if n <? 2 ^ 16 then Ok (218 :: be 2 n)
  else if n <? 2 ^ 32 then Ok (219 :: be 4 n)
  else Err ValueError.

Definition pack_bin_header (n : Z) : res (list Z) :=
  if n <? 2 ^ 8 then Ok (196 :: be 1 n)
  else if n <? 2 ^ 16 then Ok (197 :: be 2 n)
  else if n <? 2 ^ 32 then Ok (198 :: be 4 n)
  else Err ValueError.

Definition pack_array_header (n : Z) : res (list Z) :=
  if n <? 16 then Ok [144 + n]
  else if n <? 2 ^ 16 then Ok (220 :: be 2 n)
  else if n <? 2 ^ 32 then Ok (221 :: be 4 n)
  else Err ValueError.

Definition pack_map_header (n : Z) : res (list Z) :=
  if n <? 16 then Ok [128 + n]
  else if n <? 2 ^ 16 then Ok (222 :: be 2 n)
  else if n <? 2 ^ 32 then Ok (223 :: be 4 n)
  else Err ValueError.

(** [Packer._pack(o, nest_limit)]; [nest_limit < 0] raises ValueError *)
Fixpoint pack_at (nest_limit : Z) (v : val) : res (list Z) :=
  if nest_limit <? 0 then Err ValueError else
  match v with
  | VNone => Ok [192]
  | VBool false => Ok [194]
  | VBool true => Ok [195]
  | VInt z => pack_int z
  | VFloat bits => Ok (203 :: be 8 bits)
  | VStr s => h <- pack_str_header (Z.of_nat (String.length s)) ;; Ok (h ++ bytes_of_string s)
  | VBytes s => h <- pack_bin_header (Z.of_nat (String.length s)) ;; Ok (h ++ bytes_of_string s)
  | VList l | VTuple l =>
      h <- pack_array_header (Z.of_nat (length l)) ;;
      bss <- rmap (pack_at (nest_limit - 1)) l ;;
      Ok (h ++ concat bss)
  | VMap m =>
      h <- pack_map_header (Z.of_nat (length m)) ;;
      bss <- rmap (fun kv => kb <- pack_at (nest_limit - 1) (fst kv) ;; vb <- pack_at (nest_limit - 1) (snd kv) ;; Ok (kb ++ vb)) m ;;
      Ok (h ++ concat bss)
  end.

(** state.py:329-338 *)
Definition compress (v : val) : res (list Z) := pack_at 511 v.

(** ** Unpacker *)

(** the first [n] bytes; too few bytes raise ValueError ("Unpack failed: incomplete input") *)
Definition take (n : nat) (bs : list Z) : res (list Z * list Z) :=
  if Nat.leb n (length bs) then Ok (firstn n bs, skipn n bs) else Err ValueError.

Definition num (n : nat) (bs : list Z) : res (Z * list Z) :=
  ' (h, rest) <- take n bs ;; Ok (unbe h, rest).

(** [signed k z] is the two's complement value of a [k]-bit pattern *)
Definition signed (k z : Z) : Z := if z <? 2 ^ (k - 1) then z else z - 2 ^ k.

(** values that Python cannot hash, hence cannot be dict keys (unpacking yields no tuples) *)
Definition hashable (v : val) : bool := match v with VList _ | VMap _ => false | _ => true end.

(** [val_eqb]: the same value, used by [d[k] = v] to find an existing key *)
Fixpoint val_eqb (v w : val) : bool :=
  match v, w with
  | VNone, VNone => true
  | VBool b, VBool c => Bool.eqb b c
  | VInt x, VInt y => x =? y
  | VFloat x, VFloat y => x =? y
  | VStr s, VStr t => String.eqb s t
  | VBytes s, VBytes t => String.eqb s t
  | VList l, VList l' | VTuple l, VTuple l' =>
      (fix go l l' := match l, l' with
                      | [], [] => true
                      | x :: xs, y :: ys => val_eqb x y && go xs ys
                      | _, _ => false
                      end) l l'
  | VMap m, VMap m' =>
      (fix go m m' := match m, m' with
                      | [], [] => true
                      | (k, x) :: xs, (k', y) :: ys => val_eqb k k' && (val_eqb x y && go xs ys)
                      | _, _ => false
                      end) m m'
  | _, _ => false
  end.

Fixpoint vset (d : list (val * val)) (k v : val) : list (val * val) :=
  match d with
  | [] => [(k, v)]
  | (k', v') :: d' => if val_eqb k k' then (k', v) :: d' else (k', v') :: vset d' k v
  end.

(** [n] values one after the other, with [u] reading one value *)
Fixpoint items (u : list Z -> res (val * list Z)) (n : nat) (bs : list Z) : res (list val * list Z) :=
  match n with
  | O => Ok ([], bs)
  | S n' => ' (v, bs1) <- u bs ;; ' (vs, bs2) <- items u n' bs1 ;; Ok (v :: vs, bs2)
  end.

(** [n] key/value pairs stored into the dict [d] *)
Fixpoint pairs (u : list Z -> res (val * list Z)) (n : nat) (d : list (val * val)) (bs : list Z)
  : res (list (val * val) * list Z) :=
  match n with
  | O => Ok (d, bs)
  | S n' => ' (k, bs1) <- u bs ;; ' (v, bs2) <- u bs1 ;;
            if hashable k then pairs u n' (vset d k v) bs2 else Err TypeError
  end.

Definition list_of u (n : Z) bs := ' (l, rest) <- items u (Z.to_nat n) bs ;; Ok (VList l, rest).
Definition map_of u (n : Z) bs := ' (m, rest) <- pairs u (Z.to_nat n) [] bs ;; Ok (VMap m, rest).
Definition str_of (n : Z) bs := ' (s, rest) <- take (Z.to_nat n) bs ;; Ok (VStr (string_of_bytes s), rest).
Definition bin_of (n : Z) bs := ' (s, rest) <- take (Z.to_nat n) bs ;; Ok (VBytes (string_of_bytes s), rest).

(** one value; [fuel] is the unpacker's stack of nested containers *)
Fixpoint unpack_at (fuel : nat) (bs : list Z) : res (val * list Z) :=
  match fuel with
  | O => Err (Raise "StackError")
  | S f =>
      let list_of := list_of (unpack_at f) in
      let map_of := map_of (unpack_at f) in
      match bs with
      | [] => Err ValueError
      | h :: bs1 =>
          if h <? 128 then Ok (VInt h, bs1)
          else if h <? 144 then map_of (h - 128) bs1
          else if h <? 160 then list_of (h - 144) bs1
          else if h <? 192 then str_of (h - 160) bs1
          else if 224 <=? h then Ok (VInt (h - 256), bs1)
          else if h =? 192 then Ok (VNone, bs1)
          else if h =? 194 then Ok (VBool false, bs1)
          else if h =? 195 then Ok (VBool true, bs1)
          else if h =? 196 then ' (n, bs2) <- num 1 bs1 ;; bin_of n bs2
          else if h =? 197 then ' (n, bs2) <- num 2 bs1 ;; bin_of n bs2
          else if h =? 198 then ' (n, bs2) <- num 4 bs1 ;; bin_of n bs2
          else if h =? 203 then ' (n, bs2) <- num 8 bs1 ;; Ok (VFloat n, bs2)
          else if h =? 204 then ' (n, bs2) <- num 1 bs1 ;; Ok (VInt n, bs2)
          else if h =? 205 then ' (n, bs2) <- num 2 bs1 ;; Ok (VInt n, bs2)
          else if h =? 206 then ' (n, bs2) <- num 4 bs1 ;; Ok (VInt n, bs2)
          else if h =? 207 then ' (n, bs2) <- num 8 bs1 ;; Ok (VInt n, bs2)
          else if h =? 208 then ' (n, bs2) <- num 1 bs1 ;; Ok (VInt (signed 8 n), bs2)
          else if h =? 209 then ' (n, bs2) <- num 2 bs1 ;; Ok (VInt (signed 16 n), bs2)
          else if h =? 210 then ' (n, bs2) <- num 4 bs1 ;; Ok (VInt (signed 32 n), bs2)
          else if h =? 211 then ' (n, bs2) <- num 8 bs1 ;; Ok (VInt (signed 64 n), bs2)
          else if h =? 217 then ' (n, bs2) <- num 1 bs1 ;; str_of n bs2
          else if h =? 218 then ' (n, bs2) <- num 2 bs1 ;; str_of n bs2
          else if h =? 219 then ' (n, bs2) <- num 4 bs1 ;; str_of n bs2
          else if h =? 220 then ' (n, bs2) <- num 2 bs1 ;; list_of n bs2
          else if h =? 221 then ' (n, bs2) <- num 4 bs1 ;; list_of n bs2
          else if h =? 222 then ' (n, bs2) <- num 2 bs1 ;; map_of n bs2
          else if h =? 223 then ' (n, bs2) <- num 4 bs1 ;; map_of n bs2
          else Err Unmodelled (* 193 (never used), 202 (float32), ext types: packb never emits them for [val] *)
      end
  end.

(** state.py:340-352; trailing bytes raise ExtraData *)
Definition decompress (bs : list Z) : res val :=
  ' (v, rest) <- unpack_at 1024 bs ;;
  match rest with [] => Ok v | _ => Err (Raise "ExtraData") end.
