(** UTF-8 as used by Rust's [String]: encoding of a [char], byte lengths,
    decoding of byte lists (None when invalid, as [String::from_utf8]). *)
From Verif Require Import Base.

Notation byte := N (only parsing).

(** Unicode scalar value: what a Rust [char] can be. *)
Definition scalar (c : char) : bool :=
  ((c <? 55296) || ((57344 <=? c) && (c <=? 1114111)))%N.

(** Number of bytes of one character ([char::len_utf8]). *)
Definition clen (c : char) : nat :=
  (if (c <? 128)%N then 1
   else if (c <? 2048)%N then 2
   else if (c <? 65536)%N then 3
   else 4)%nat.

(** [char::encode_utf8] *)
Definition cenc (c : char) : list byte :=
  (if c <? 128 then [c]
   else if c <? 2048 then [192 + c / 64; 128 + c mod 64]
   else if c <? 65536 then [224 + c / 4096; 128 + (c / 64) mod 64; 128 + c mod 64]
   else [240 + c / 262144; 128 + (c / 4096) mod 64; 128 + (c / 64) mod 64; 128 + c mod 64])%N.

Definition enc (t : text) : list byte := flat_map cenc t.

(** [str::len]: byte length of a text. *)
Fixpoint blen (t : text) : nat :=
  match t with [] => 0 | c :: t' => clen c + blen t' end.

Definition is_cont (b : byte) : bool := ((128 <=? b) && (b <=? 191))%N.

(** Decode one character from the front.  The acceptance conditions are those
    of the Unicode standard (table 3-7), implemented by [str::from_utf8]:
    shortest form only, no surrogates, nothing above U+10FFFF. *)
Definition dec1 (bs : list byte) : option (char * list byte) :=
  (match bs with
   | [] => None
   | b0 :: r0 =>
     if b0 <? 128 then Some (b0, r0)
     else if (194 <=? b0) && (b0 <=? 223) then
       match r0 with
       | b1 :: r1 => if is_cont b1 then Some ((b0 - 192) * 64 + (b1 - 128), r1) else None
       | _ => None
       end
     else if (224 <=? b0) && (b0 <=? 239) then
       match r0 with
       | b1 :: b2 :: r2 =>
         if is_cont b1 && is_cont b2
            && (if b0 =? 224 then 160 <=? b1 else true)
            && (if b0 =? 237 then b1 <=? 159 else true)
         then Some ((b0 - 224) * 4096 + (b1 - 128) * 64 + (b2 - 128), r2) else None
       | _ => None
       end
     else if (240 <=? b0) && (b0 <=? 244) then
       match r0 with
       | b1 :: b2 :: b3 :: r3 =>
         if is_cont b1 && is_cont b2 && is_cont b3
            && (if b0 =? 240 then 144 <=? b1 else true)
            && (if b0 =? 244 then b1 <=? 143 else true)
         then Some ((b0 - 240) * 262144 + (b1 - 128) * 4096 + (b2 - 128) * 64 + (b3 - 128), r3)
         else None
       | _ => None
       end
     else None
   end)%N.

Fixpoint dec_fuel (n : nat) (bs : list byte) : option text :=
  match bs with
  | [] => Some []
  | _ =>
    match n with
    | O => None
    | S n' =>
      match dec1 bs with
      | None => None
      | Some (c, r) =>
        match dec_fuel n' r with None => None | Some t => Some (c :: t) end
      end
    end
  end.

(** [String::from_utf8]; every step consumes a byte, so the length is enough
    fuel. *)
Definition dec (bs : list byte) : option text := dec_fuel (length bs) bs.

(** [&s\[..n\]] and [&s\[n..\]] at byte offset [n]: panic unless the offset is a
    character boundary. *)
Fixpoint bsplit (t : text) (n : nat) : res (text * text) :=
  match n with
  | O => Val ([], t)
  | S _ =>
    match t with
    | [] => Pan PBoundary
    | c :: t' =>
      if clen c <=? n
      then match bsplit t' (n - clen c) with
           | Val (a, b) => Val (c :: a, b)
           | Pan p => Pan p
           end
      else Pan PBoundary
    end
  end.
