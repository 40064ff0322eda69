(** * The parts of std's UTF-8 handling that the lexer uses

    [std::str::from_utf8] (validity), [char::from_u32] and [char::to_string] (encoding), and the first
    character of a valid string ([str::chars().next()]).  Modelled by the documented behaviour of std
    (Unicode table 3-7, well-formed byte sequences), not from source in the repository. *)
Require Import Verif.Base Verif.MaybeByteM.
Local Open Scope N_scope.

Definition is_cont (c : N) : bool := in_range 128 191 c.

(** Second byte ranges of Unicode table 3-7. *)
Definition second3_ok (c1 c2 : N) : bool :=
  if N.eqb c1 224 then in_range 160 191 c2
  else if N.eqb c1 237 then in_range 128 159 c2
  else is_cont c2.
Definition second4_ok (c1 c2 : N) : bool :=
  if N.eqb c1 240 then in_range 144 191 c2
  else if N.eqb c1 244 then in_range 128 143 c2
  else is_cont c2.

(** [str::from_utf8(bytes).is_ok()] *)
Fixpoint utf8_valid (l : list N) : bool :=
  match l with
  | [] => true
  | c1 :: r1 =>
      if c1 <? 128 then utf8_valid r1
      else if in_range 194 223 c1 then
        match r1 with
        | c2 :: r2 => is_cont c2 && utf8_valid r2
        | [] => false
        end
      else if in_range 224 239 c1 then
        match r1 with
        | c2 :: c3 :: r3 => second3_ok c1 c2 && is_cont c3 && utf8_valid r3
        | _ => false
        end
      else if in_range 240 244 c1 then
        match r1 with
        | c2 :: c3 :: c4 :: r4 => second4_ok c1 c2 && is_cont c3 && is_cont c4 && utf8_valid r4
        | _ => false
        end
      else false
  end.

(** Code point of the first character of a valid string. *)
Definition first_char (l : list N) : option N :=
  match l with
  | [] => None
  | c1 :: r =>
      if c1 <? 128 then Some c1
      else match r with
           | [] => None
           | c2 :: r2 =>
               if c1 <? 224 then Some ((c1 - 192) * 64 + (c2 - 128))
               else match r2 with
                    | [] => None
                    | c3 :: r3 =>
                        if c1 <? 240 then Some ((c1 - 224) * 4096 + (c2 - 128) * 64 + (c3 - 128))
                        else match r3 with
                             | [] => None
                             | c4 :: _ =>
                                 Some ((c1 - 240) * 262144 + (c2 - 128) * 4096
                                       + (c3 - 128) * 64 + (c4 - 128))
                             end
                    end
           end
  end.

(** [char::from_u32]: scalar values only. *)
Definition from_u32 (cp : N) : option N :=
  if (cp <=? 1114111) && negb (in_range 55296 57343 cp) then Some cp else None.

(** [char::to_string().into_bytes()] *)
Definition utf8_encode (cp : N) : list N :=
  if cp <? 128 then [cp]
  else if cp <? 2048 then [192 + cp / 64; 128 + cp mod 64]
  else if cp <? 65536 then [224 + cp / 4096; 128 + (cp / 64) mod 64; 128 + cp mod 64]
  else [240 + cp / 262144; 128 + (cp / 4096) mod 64; 128 + (cp / 64) mod 64; 128 + cp mod 64].
