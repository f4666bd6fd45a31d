(** Python's strict UTF-8 codec ([str.encode()] / [bytes.decode()]), used by
    runtimepy/primitives/string.py, message/__init__.py and others.

    A Python string is a list of code points.  This models the built-in codec,
    not repository code. *)
From Verif Require Import Base.

(** Code points a Python string can hold, and those UTF-8 can encode. *)
Definition is_cp (c : Z) : Prop := 0 <= c < 1114112.
Definition is_surrogate (c : Z) : bool := (55296 <=? c) && (c <=? 57343).
Definition is_scalar (c : Z) : Prop := is_cp c /\ is_surrogate c = false.
Definition is_ascii (c : Z) : Prop := 0 <= c < 128.

Definition utf8_enc1 (c : Z) : list Z :=
  if c <? 128 then [c]
  else if c <? 2048 then [192 + c / 64; 128 + c mod 64]
  else if c <? 65536 then [224 + c / 4096; 128 + c / 64 mod 64; 128 + c mod 64]
  else [240 + c / 262144; 128 + c / 4096 mod 64; 128 + c / 64 mod 64; 128 + c mod 64].

(** [s.encode()]: None is UnicodeEncodeError (a lone surrogate). *)
Fixpoint utf8_encode (s : list Z) : option (list Z) :=
  match s with
  | [] => Some []
  | c :: s' =>
      if is_surrogate c then None
      else match utf8_encode s' with
           | Some r => Some (utf8_enc1 c ++ r)
           | None => None
           end
  end.

Definition is_cont (b : Z) : bool := (128 <=? b) && (b <=? 191).

(** [b.decode()]: None is UnicodeDecodeError. *)
Fixpoint utf8_decode (l : list Z) : option (list Z) :=
  match l with
  | [] => Some []
  | b0 :: l1 =>
      if b0 <? 128 then option_map (cons b0) (utf8_decode l1)
      else if (194 <=? b0) && (b0 <=? 223) then
        match l1 with
        | b1 :: l2 =>
            if is_cont b1
            then option_map (cons ((b0 - 192) * 64 + (b1 - 128))) (utf8_decode l2)
            else None
        | _ => None
        end
      else if (224 <=? b0) && (b0 <=? 239) then
        match l1 with
        | b1 :: b2 :: l3 =>
            let c := (b0 - 224) * 4096 + (b1 - 128) * 64 + (b2 - 128) in
            if is_cont b1 && is_cont b2 && (2048 <=? c) && negb (is_surrogate c)
            then option_map (cons c) (utf8_decode l3)
            else None
        | _ => None
        end
      else if (240 <=? b0) && (b0 <=? 244) then
        match l1 with
        | b1 :: b2 :: b3 :: l4 =>
            let c := (b0 - 240) * 262144 + (b1 - 128) * 4096
                     + (b2 - 128) * 64 + (b3 - 128) in
            if is_cont b1 && is_cont b2 && is_cont b3
               && (65536 <=? c) && (c <? 1114112)
            then option_map (cons c) (utf8_decode l4)
            else None
        | _ => None
        end
      else None
  end.
