(** * Token kinds

    The [%token] declarations and precedence table of src/parser/parse.y 78-300.  In Rust a token kind is an
    [i32] constant of [Lexer] generated by bison (END_OF_INPUT is 0, parse.y 206); the generated file is not
    in the repository, so kinds are an enumeration here and [tok_idx] numbers them in order of declaration. *)
Require Import Verif.Base.

Inductive Tok : Type :=
| END_OF_INPUT | kCLASS | kMODULE | kDEF | kUNDEF | kBEGIN | kRESCUE | kENSURE | kEND | kIF 
| kUNLESS | kTHEN | kELSIF | kELSE | kCASE | kWHEN | kWHILE | kUNTIL | kFOR | kBREAK | kNEXT 
| kREDO | kRETRY | kIN | kDO | kDO_COND | kDO_BLOCK | kDO_LAMBDA | kRETURN | kYIELD | kSUPER 
| kSELF | kNIL | kTRUE | kFALSE | kAND | kOR | kNOT | kIF_MOD | kUNLESS_MOD | kWHILE_MOD 
| kUNTIL_MOD | kRESCUE_MOD | kALIAS | kDEFINED | klBEGIN | klEND | k__LINE__ | k__FILE__ 
| k__ENCODING__ | tIDENTIFIER | tFID | tGVAR | tIVAR | tCONSTANT | tCVAR | tLABEL | tINTEGER 
| tFLOAT | tRATIONAL | tIMAGINARY | tCHAR | tNTH_REF | tBACK_REF | tSTRING_CONTENT | tREGEXP_END 
| tDOT | tBACKSLASH | tSP | tSLASH_T | tSLASH_F | tSLASH_R | tVTAB | tUPLUS | tUMINUS | tPOW | tCMP 
| tEQ | tEQQ | tNEQ | tGEQ | tLEQ | tANDOP | tOROP | tMATCH | tNMATCH | tDOT2 | tDOT3 | tBDOT2 
| tBDOT3 | tAREF | tASET | tLSHFT | tRSHFT | tANDDOT | tCOLON2 | tCOLON3 | tOP_ASGN | tASSOC 
| tLPAREN | tLPAREN_ARG | tRPAREN | tLBRACK | tLBRACE | tLBRACE_ARG | tSTAR | tDSTAR | tAMPER 
| tLAMBDA | tSYMBEG | tSTRING_BEG | tXSTRING_BEG | tREGEXP_BEG | tWORDS_BEG | tQWORDS_BEG 
| tSYMBOLS_BEG | tQSYMBOLS_BEG | tSTRING_END | tSTRING_DEND | tSTRING_DBEG | tSTRING_DVAR | tLAMBEG 
| tLABEL_END | tCOMMA | tLCURLY | tRCURLY | tLBRACK2 | tEQL | tPIPE | tAMPER2 | tGT | tLT 
| tBACK_REF2 | tCARET | tLPAREN2 | tRBRACK | tSEMI | tSPACE | tNL | tPLUS | tMINUS | tSTAR2 
| tDIVIDE | tPERCENT | tTILDE | tBANG | tEH | tCOLON | tUMINUS_NUM .

Definition tok_idx (t : Tok) : N :=
  match t with
  | END_OF_INPUT => 0 | kCLASS => 1 | kMODULE => 2 | kDEF => 3 | kUNDEF => 4 | kBEGIN => 5 
  | kRESCUE => 6 | kENSURE => 7 | kEND => 8 | kIF => 9 | kUNLESS => 10 | kTHEN => 11 | kELSIF => 12 
  | kELSE => 13 | kCASE => 14 | kWHEN => 15 | kWHILE => 16 | kUNTIL => 17 | kFOR => 18 
  | kBREAK => 19 | kNEXT => 20 | kREDO => 21 | kRETRY => 22 | kIN => 23 | kDO => 24 
  | kDO_COND => 25 | kDO_BLOCK => 26 | kDO_LAMBDA => 27 | kRETURN => 28 | kYIELD => 29 
  | kSUPER => 30 | kSELF => 31 | kNIL => 32 | kTRUE => 33 | kFALSE => 34 | kAND => 35 | kOR => 36 
  | kNOT => 37 | kIF_MOD => 38 | kUNLESS_MOD => 39 | kWHILE_MOD => 40 | kUNTIL_MOD => 41 
  | kRESCUE_MOD => 42 | kALIAS => 43 | kDEFINED => 44 | klBEGIN => 45 | klEND => 46 
  | k__LINE__ => 47 | k__FILE__ => 48 | k__ENCODING__ => 49 | tIDENTIFIER => 50 | tFID => 51 
  | tGVAR => 52 | tIVAR => 53 | tCONSTANT => 54 | tCVAR => 55 | tLABEL => 56 | tINTEGER => 57 
  | tFLOAT => 58 | tRATIONAL => 59 | tIMAGINARY => 60 | tCHAR => 61 | tNTH_REF => 62 
  | tBACK_REF => 63 | tSTRING_CONTENT => 64 | tREGEXP_END => 65 | tDOT => 66 | tBACKSLASH => 67 
  | tSP => 68 | tSLASH_T => 69 | tSLASH_F => 70 | tSLASH_R => 71 | tVTAB => 72 | tUPLUS => 73 
  | tUMINUS => 74 | tPOW => 75 | tCMP => 76 | tEQ => 77 | tEQQ => 78 | tNEQ => 79 | tGEQ => 80 
  | tLEQ => 81 | tANDOP => 82 | tOROP => 83 | tMATCH => 84 | tNMATCH => 85 | tDOT2 => 86 
  | tDOT3 => 87 | tBDOT2 => 88 | tBDOT3 => 89 | tAREF => 90 | tASET => 91 | tLSHFT => 92 
  | tRSHFT => 93 | tANDDOT => 94 | tCOLON2 => 95 | tCOLON3 => 96 | tOP_ASGN => 97 | tASSOC => 98 
  | tLPAREN => 99 | tLPAREN_ARG => 100 | tRPAREN => 101 | tLBRACK => 102 | tLBRACE => 103 
  | tLBRACE_ARG => 104 | tSTAR => 105 | tDSTAR => 106 | tAMPER => 107 | tLAMBDA => 108 
  | tSYMBEG => 109 | tSTRING_BEG => 110 | tXSTRING_BEG => 111 | tREGEXP_BEG => 112 
  | tWORDS_BEG => 113 | tQWORDS_BEG => 114 | tSYMBOLS_BEG => 115 | tQSYMBOLS_BEG => 116 
  | tSTRING_END => 117 | tSTRING_DEND => 118 | tSTRING_DBEG => 119 | tSTRING_DVAR => 120 
  | tLAMBEG => 121 | tLABEL_END => 122 | tCOMMA => 123 | tLCURLY => 124 | tRCURLY => 125 
  | tLBRACK2 => 126 | tEQL => 127 | tPIPE => 128 | tAMPER2 => 129 | tGT => 130 | tLT => 131 
  | tBACK_REF2 => 132 | tCARET => 133 | tLPAREN2 => 134 | tRBRACK => 135 | tSEMI => 136 
  | tSPACE => 137 | tNL => 138 | tPLUS => 139 | tMINUS => 140 | tSTAR2 => 141 | tDIVIDE => 142 
  | tPERCENT => 143 | tTILDE => 144 | tBANG => 145 | tEH => 146 | tCOLON => 147 
  | tUMINUS_NUM => 148 
  end%N.

(** Equality of token kinds ([==] on [i32]) *)
Definition tok_eqb (a b : Tok) : bool := N.eqb (tok_idx a) (tok_idx b).
