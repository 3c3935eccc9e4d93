(** The DEFLATE format (RFC 1951) as a relation between bit sequences and the
    bytes they denote; zlib (RFC 1950) on top.  Written from the RFC, not from
    the code: canonical codes come from CanonSpec, matches are expanded one
    byte at a time. *)
From Verif Require Import Base CanonSpec ChecksumSpec.

(** ** LZ77 tokens and their meaning *)
Inductive token : Type :=
| TLit (b : Z)
| TMatch (len dist : Z).

(** append [n] bytes, each the one [dist] positions back from the end *)
Fixpoint copy_back (n : nat) (dist : nat) (out : list Z) : list Z :=
  match n with
  | O => out
  | S n' => copy_back n' dist (out ++ [nth (length out - dist) out 0])
  end.
Definition expand1 (out : list Z) (t : token) : option (list Z) :=
  match t with
  | TLit b => if (0 <=? b) && (b <? 256) then Some (out ++ [b]) else None
  | TMatch len dist =>
      if (3 <=? len) && (len <=? 258) && (1 <=? dist) && (dist <=? 32768) && (dist <=? zlen out)
      then Some (copy_back (Z.to_nat len) (Z.to_nat dist) out) else None
  end.
Fixpoint expand (out : list Z) (ts : list token) : option (list Z) :=
  match ts with
  | [] => Some out
  | t :: r => match expand1 out t with Some o => expand o r | None => None end
  end.

(** ** Length and distance codes: RFC 1951 3.2.5, (first value, extra bits) *)
Definition rfc_length : list (Z * Z) :=
  [(3,0);(4,0);(5,0);(6,0);(7,0);(8,0);(9,0);(10,0);
   (11,1);(13,1);(15,1);(17,1);(19,2);(23,2);(27,2);(31,2);
   (35,3);(43,3);(51,3);(59,3);(67,4);(83,4);(99,4);(115,4);
   (131,5);(163,5);(195,5);(227,5);(258,0)].
Definition rfc_distance : list (Z * Z) :=
  [(1,0);(2,0);(3,0);(4,0);(5,1);(7,1);(9,2);(13,2);(17,3);(25,3);
   (33,4);(49,4);(65,5);(97,5);(129,6);(193,6);(257,7);(385,7);(513,8);(769,8);
   (1025,9);(1537,9);(2049,10);(3073,10);(4097,11);(6145,11);(8193,12);(12289,12);
   (16385,13);(24577,13)].

(** [bits] is an encoding of one token with the given two codes *)
Inductive tok_bits (ll dl : list Z) : token -> list bool -> Prop :=
| tb_lit b : 0 <= b < 256 -> has_code ll (Z.to_nat b) ->
    tok_bits ll dl (TLit b) (code_word ll (Z.to_nat b))
| tb_match li lb le x di db de y :
    nth_error rfc_length li = Some (lb, le) -> 0 <= x < 2 ^ le -> has_code ll (257 + li) ->
    nth_error rfc_distance di = Some (db, de) -> 0 <= y < 2 ^ de -> has_code dl di ->
    tok_bits ll dl (TMatch (lb + x) (db + y))
      (code_word ll (257 + li) ++ bits_of (Z.to_nat le) x ++
       code_word dl di ++ bits_of (Z.to_nat de) y).
Inductive toks_bits (ll dl : list Z) : list token -> list bool -> Prop :=
| ts_nil : toks_bits ll dl [] []
| ts_cons t ts b bs : tok_bits ll dl t b -> toks_bits ll dl ts bs -> toks_bits ll dl (t :: ts) (b ++ bs).
(** the compressed data of a block: tokens, then end-of-block (256) *)
Inductive body_bits (ll dl : list Z) : list token -> list bool -> Prop :=
| body ts bs : toks_bits ll dl ts bs -> has_code ll 256 ->
    body_bits ll dl ts (bs ++ code_word ll 256).

(** ** Code lengths *)
(** 3.2.6 *)
Definition rfc_fixed_lit : list Z := repeat 8 144 ++ repeat 9 112 ++ repeat 7 24 ++ repeat 8 8.
Definition rfc_fixed_dist : list Z := repeat 5 32.
(** 3.2.7: order of the code length code lengths *)
Definition rfc_cl_order : list nat :=
  [16; 17; 18; 0; 8; 7; 9; 6; 10; 5; 11; 4; 12; 3; 13; 2; 14; 1; 15]%nat.

(** one code-length instruction: appends to the lengths read so far *)
Inductive cl_instr : Type := CLen (v : Z) | CRep (n : Z) | CZero3 (n : Z) | CZero7 (n : Z).
Definition cl_run1 (acc : list Z) (i : cl_instr) : option (list Z) :=
  match i with
  | CLen v => if (0 <=? v) && (v <=? 15) then Some (acc ++ [v]) else None
  | CRep n => match acc with
              | [] => None
              | _ => if (3 <=? n) && (n <=? 6) then Some (acc ++ repeat (last acc 0) (Z.to_nat n)) else None
              end
  | CZero3 n => if (3 <=? n) && (n <=? 10) then Some (acc ++ repeat 0 (Z.to_nat n)) else None
  | CZero7 n => if (11 <=? n) && (n <=? 138) then Some (acc ++ repeat 0 (Z.to_nat n)) else None
  end.
Fixpoint cl_run (acc : list Z) (is : list cl_instr) : option (list Z) :=
  match is with
  | [] => Some acc
  | i :: r => match cl_run1 acc i with Some a => cl_run a r | None => None end
  end.
Definition cl_sym (i : cl_instr) : nat :=
  match i with CLen v => Z.to_nat v | CRep _ => 16 | CZero3 _ => 17 | CZero7 _ => 18 end.
Definition cl_extra (i : cl_instr) : list bool :=
  match i with
  | CLen _ => []
  | CRep n => bits_of 2 (n - 3)
  | CZero3 n => bits_of 3 (n - 3)
  | CZero7 n => bits_of 7 (n - 11)
  end.
Definition cl_bits (cl : list Z) (is : list cl_instr) : list bool :=
  flat_map (fun i => code_word cl (cl_sym i) ++ cl_extra i) is.

(** code length code lengths: 19 of them, of which the first [n] in
    [rfc_cl_order] are transmitted (3 bits each) and the others are zero *)
Definition cl_header (n : nat) (cl : list Z) : list bool :=
  flat_map (fun o => bits_of 3 (nth o cl 0)) (firstn n rfc_cl_order).

(** 3.2.7: the header of a dynamic block and the two codes it announces *)
Inductive dyn_header (K : Z -> list Z -> Prop) : list bool -> list Z -> list Z -> Prop :=
| dynh hlit hdist hclen cl is ll dl :
    0 <= hlit < 32 -> 0 <= hdist < 32 -> 0 <= hclen < 16 ->
    length cl = 19%nat -> K 7 cl ->
    Forall (fun o => nth o cl 0 = 0) (skipn (Z.to_nat (hclen + 4)) rfc_cl_order) ->
    Forall (fun i => has_code cl (cl_sym i)) is ->
    cl_run [] is = Some (ll ++ dl) ->
    zlen ll = hlit + 257 -> zlen dl = hdist + 1 ->
    dyn_header K (bits_of 5 hlit ++ bits_of 5 hdist ++ bits_of 4 hclen ++
                cl_header (Z.to_nat (hclen + 4)) cl ++ cl_bits cl is) ll dl.

(** ** Blocks and streams.
    [block out bits out' rest]: [bits] starts (after BFINAL) with a block that
    extends the output [out] to [out'] and leaves [rest].  Since the input is
    a whole number of bytes, a byte boundary is a place where the number of
    bits left is a multiple of 8.  [K M lens] is the condition put on every
    transmitted set of code lengths: [code_ok] (no over-subscription) for the
    format proper, [lens_ok] for what a lenient decoder may accept. *)
Inductive block (K : Z -> list Z -> Prop) : list Z -> list bool -> list Z -> list bool -> Prop :=
| blk_stored out pad data rest :
    (length pad < 8)%nat ->
    bytes data -> zlen data <= 65535 -> Nat.modulo (length rest) 8 = 0%nat ->
    block K out
      ([false; false] ++ pad ++ bits_of 16 (zlen data) ++ bits_of 16 (65535 - zlen data) ++
       bytes_bits data ++ rest)
      (out ++ data) rest
| blk_fixed out ts bs out' rest :
    body_bits rfc_fixed_lit rfc_fixed_dist ts bs -> expand out ts = Some out' ->
    block K out ([true; false] ++ bs ++ rest) out' rest
| blk_dynamic out hb ll dl ts bs out' rest :
    dyn_header K hb ll dl -> K 15 ll -> K 15 dl ->
    body_bits ll dl ts bs -> expand out ts = Some out' ->
    block K out ([false; true] ++ hb ++ bs ++ rest) out' rest.

Inductive blocks (K : Z -> list Z -> Prop) : list Z -> list bool -> list Z -> list bool -> Prop :=
| bks_last out bits out' rest : block K out bits out' rest -> blocks K out (true :: bits) out' rest
| bks_more out bits out1 mid out' rest :
    block K out bits out1 mid -> blocks K out1 mid out' rest -> blocks K out (false :: bits) out' rest.

(** the byte string [data] is a DEFLATE stream for [out]; the final block may
    be followed by fewer than 8 bits of padding *)
Definition deflate_stream (data : list Z) (out : list Z) : Prop :=
  exists rest, blocks code_ok [] (bytes_bits data) out rest /\ (length rest < 8)%nat.

(** RFC 1950: header, DEFLATE stream, big-endian Adler-32 *)
Definition zlib_stream (data : list Z) (out : list Z) : Prop :=
  exists cmf flg body a b c d,
    data = [cmf; flg] ++ body ++ [a; b; c; d] /\
    is_byte cmf /\ is_byte flg /\ cmf mod 16 = 8 /\ cmf / 16 <= 7 /\ (cmf * 256 + flg) mod 31 = 0 /\
    Z.testbit flg 5 = false /\
    bytes [a; b; c; d] /\ deflate_stream body out /\
    a * 2 ^ 24 + b * 2 ^ 16 + c * 2 ^ 8 + d = adler_spec out.

(** what a stream accepted by a lenient reader looks like: RFC 1950, except
    that CINFO is unchecked, over-subscribed codes and bytes between the final
    block and the checksum are tolerated *)
Definition zlib_accepts (data out : list Z) : Prop :=
  exists cmf flg body a b c d rest,
    data = [cmf; flg] ++ body ++ [a; b; c; d] /\ cmf mod 16 = 8 /\ (cmf * 256 + flg) mod 31 = 0 /\ Z.testbit flg 5 = false /\
    blocks lens_ok [] (bytes_bits body) out rest /\ a * 2 ^ 24 + b * 2 ^ 16 + c * 2 ^ 8 + d = adler_spec out.
