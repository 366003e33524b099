(** Generated by tools/unicode_translate.py from the three headers named below; one definition per C++ function. The functions for
    unsigned char were found to have the same bodies as those for char8_t; those for char and wchar_t call these. *)
From Verif Require Import Words UniModel.
Import ListNotations.
Local Open Scope N_scope.

(** include/muu/impl/unicode_char32_t.h:34-37 *)
Definition is_ascii_code_point_32 : stmt :=
  (Return (Le 0x7F)).
(** include/muu/impl/unicode_char32_t.h:46-49 *)
Definition is_ascii_hyphen_32 : stmt :=
  (Return (Eq 0x2D)).
(** include/muu/impl/unicode_char32_t.h:58-61 *)
Definition is_ascii_letter_32 : stmt :=
  (Return (Or (And (Ge 0x41) (Le 0x5A)) (And (Ge 0x61) (Le 0x7A)))).
(** include/muu/impl/unicode_char32_t.h:70-73 *)
Definition is_ascii_lowercase_32 : stmt :=
  (Return (And (Ge 0x61) (Le 0x7A))).
(** include/muu/impl/unicode_char32_t.h:82-85 *)
Definition is_ascii_number_32 : stmt :=
  (Return (And (Ge 0x30) (Le 0x39))).
(** include/muu/impl/unicode_char32_t.h:94-97 *)
Definition is_ascii_uppercase_32 : stmt :=
  (Return (And (Ge 0x41) (Le 0x5A))).
(** include/muu/impl/unicode_char32_t.h:106-109 *)
Definition is_ascii_whitespace_32 : stmt :=
  (Return (Or (And (Ge 0x9) (Le 0xD)) (Eq 0x20))).
(** include/muu/impl/unicode_char32_t.h:118-121 *)
Definition is_non_ascii_code_point_32 : stmt :=
  (Return (And (Le 0x10FFFF) (Ge 0x80))).
(** include/muu/impl/unicode_char32_t.h:130-150 *)
Definition is_non_ascii_hyphen_32 : stmt :=
  (If (Or (Lt 0xAD) (Gt 0xFF65))
    (Return No)
  (If (BlockIn 64 0xAD 0x3FB 0x7FFFFFFFFFFFE75C)
    (Return No)
  (If (Or (Or (Or (Or (Eq 0xAD) (Eq 0x58A)) (Eq 0x1806)) (Eq 0x2E17)) (Eq 0x30FB))
    (Return Yes)
  (If (BlockIs 64 0xAD 0x3FB 0x7)
    (Return (And (Ge 0x2010) (Le 0x2011)))
  (If (BlockIs 64 0xAD 0x3FB 0x3F)
    (Return (Or (Or (Eq 0xFE63) (Eq 0xFF0D)) (Eq 0xFF65)))
  Unreachable))))).
(** include/muu/impl/unicode_char32_t.h:159-554 *)
Definition is_non_ascii_letter_32 : stmt :=
  (If (Or (Lt 0xAA) (Gt 0x323AF))
    (Return No)
  (If (BlockIn 64 0xAA 0xC8D 0x130C040000)
    (Return No)
  (If (BlockIn 64 0xAA 0xC8D 0x853FFE004001DFA0)
    (Return Yes)
  (If (BlockIs 64 0xAA 0xC8D 0x0)
    (Assume (And (Ge 0xAA) (Le 0xD36))
    (Return (TableBit 0xAA 0xAA [0xFFFFDFFFFFC10801;0xFFFFFFFFFFFFDFFF;0xFFFFFFFFFFFFFFFF;0xFFFFFFFFFFFFFFFF;0xFFFFFFFFFFFFFFFF;0xFFFFFFFFFFFFFFFF;0xFFFFFFFFFFFFFFFF;0xFFFFFFFFFFFFFFFF;0x7C000FFF0FFFFFF;0x14;0x0;0xFEFFFFF5D02F37C0;0xFFFFFFFFFFFFFFFF;0xFFFFFFFFFFFFEFFF;0xFFFFFFFFFFFFFFFF;0xFFFFFFFF00FFFFFF;0xFFFFFFFFFFFFFFFF;0xFFFFFFFFFFFFFFFF;0xFFC09FFFFFFFFFBF;0x7FFFFFFF;0xFFFFFFC000000000;0xFFC00000000001E1;0x1FFFFFFFF;0xFFFFFFFFFFFFFFB0;0x18000BFFFFFFFFFF;0xFFFFFF4000270030;0xFFFFFFF80000003F;0xFFFFFFFFFFFFFFF;0xFFFFFFFF00000080;0x44010FFFFFC10C01;0xFFC07FFFFFC00000;0xFFC0001FBFFFFFC1;0xFFFFFFFF;0xFFFFFFFFFC000000;0xFFC0400008FFFF;0x7FFFFE67F87FFF80;0xEC00100008F17F;0x7FFFFE61F80400C0;0x1780000000DB7F;0x7FFFFEEFF8000700;0xC000400008FB7F;0x7FFFFE67F8008000;0xEC00000008FB7F;0xC6358F71FA000080;0x400000FFF1;0x7FFFFF77F8000000;0xC9C0000008FFFF;0x7FFFFF77F8400000;0xD800000008FBFF;0xFFFFFF77FC000180;0x1FFF])))
  (If (BlockIs 64 0xAA 0xC8D 0x1)
    (Assume (And (Ge 0xD37) (Le 0x19C3))
    (Return (TableBit 0xD37 0xD37 [0x700E080004F;0xF7FFFFF8FFFFC1F8;0xFE5F;0x1BFFFFFFFFFFFC00;0xFE00;0x1BFF5FFFFFEFAC00;0x1E00000BE40;0x200;0x3FFFFFFFFDFE00;0x3E0000;0x0;0xFFFFFFFFFFE00;0xC380C4787E000100;0xFFFFFE00008007FF;0xFFFFFFFFFE417FFF;0xFFFFFFFFFFFFFFEF;0xFFFFFFFFFFFFFFFF;0xFFFFFFFFFFFFFFFF;0xFFFFFFFFFFFFFFFF;0xFFFFFFFFFFFFFFFF;0xFFFFFE7AFE7BFFFF;0x7BFFFFFFFE7BFFFF;0xFFFFFFFEFFFE7AFE;0xFFFFFFFE7BFFFFFF;0xFFFFFFFFF;0xFFFFFE0001FFFE00;0x7FFFFFFFFFFFFFFF;0xFFFFFFFFFFFFFC7E;0xFFFFFFFFFFFFFFFF;0xFFFFFFFFFFFFFFFF;0xFFFFFFFFFFFFFFFF;0xFFFFFFFFFFFFFFFF;0xFFFFFFFFFFFFFFFF;0xFFFFFFFFFFFFFFFF;0xFFFFFFFFFFFFFFFF;0xFFFFFFFFFFFFFFFF;0xFF3FFFFFFFFFFFFF;0xFFFFFE0FFFFFFDFF;0xFC0FFFFFFFFFFFFF;0x7FFFF0007FFFE03;0x3BFFE0007FFFE00;0x1FFFFFFFFFFFFE00;0x2100000000;0xFFFFFE0000000000;0xFFFFFFFFFFFFFFFF;0xFE0BFFFFFFFF3E03;0x7FFFFFFFFFFFFFFF;0xFFFFFFFE00;0x3E7FFFFFFE000000;0xFE1FFFFFFFFFFE00;0x1FFF])))
  (If (BlockIs 64 0xAA 0xC8D 0x2)
    (If (Gt 0x2184)
      (Return No)
    (Assume (Ge 0x19C4)
    (Return (TableBit 0x19C4 0x19C4 [0xF00000000000003F;0xFFFFFFFFF007FFFF;0x1FFFF;0x800000000;0x0;0xFFFFFFFFFFFE;0x80000000000001FE;0xFFC00C001FFFFFFF;0xF0000003FFFFFFFF;0xFFFFFFFF;0xF3FFFFFFFFC00E00;0xE7FFFFFFFFFF01F;0xF046FDE000000000;0xFFFFFFFFFFFFFFFF;0xFFFFFFFFFFFFFFFF;0xFFFFFFFFFFFFFFF;0xF000000000000000;0xFFFFFFFFFFFFFFFF;0xFFFFFFFFFFFFFFFF;0xFFFFFFFFFFFFFFFF;0xFFFFFFFFFFFFFFFF;0xFFFFFFFFF3F3FFFF;0xF3FFFFFFFAAFF3F3;0xC5FDFFFFFFFFFFFF;0x1FDC1FFF0FCF1FD;0x0;0x800200000000000;0x1FFF000;0x4000000000000000;0xF3FFBD503E2FFC8;0x800000000000043E;0x1]))))
  (If (BlockIs 64 0xAA 0xC8D 0x3)
    (If (Or (Lt 0x2C00) (Gt 0x31FF))
      (Return No)
    (Return (TableBit 0x2C00 0x0 [0xFFFFFFFFFFFFFFFF;0xFFFFFFFFFFFFFFFF;0xFFFFFFFFFFFFFFFF;0xC781FFFFFFFFF;0xFFFF20BFFFFFFFFF;0x80FFFFFFFFFF;0x7F7F7F7F007FFFFF;0x7F7F7F7F;0x800000000000;0x0;0x0;0x0;0x0;0x0;0x0;0x0;0x183E000000000060;0xFFFFFFFFFFFFFFFE;0xFFFFFFFEE07FFFFF;0xF7FFFFFFFFFFFFFF;0xFFFEFFFFFFFFFFE0;0xFFFFFFFFFFFFFFFF;0xFFFFFFFF00007FFF;0xFFFF000000000000])))
  (If (BlockIs 64 0xAA 0xC8D 0x4)
    (Return (Ge 0x3400))
  (If (BlockIs 64 0xAA 0xC8D 0x6)
    (Return (Or (Le 0x4DBF) (Ge 0x4E00)))
  (If (BlockIs 64 0xAA 0xC8D 0xD)
    (Assume (And (Ge 0xA3D3) (Le 0xB05F))
    (Return (TableBit 0xA3D3 0xA3D3 [0xFFFFFFFFFFFFFFFF;0xFFFFFFFFFFFFFFFF;0x3FFFFFFFFFFFFFF;0xE000000000000000;0xFFFFE7FFFFFFFFFF;0xFFFFFFFFFFFFFFFF;0xFFFFFFFFFFFFFFFF;0xFFFFFFFFFFFFFFFF;0xE3FFFFFFFFFFFFFF;0xFFFFE00001801FFF;0xFFFFF0000FFFFFFF;0xFFFFFFFFFFFFE7FF;0x7FFFF;0xFFFFFFFFFFFF9FF0;0xFF3FFFFFFFFFFFFF;0x60FFFFFFFFFFFFFF;0xFEF77FFF8000007D;0xFFFFE0000000FFFF;0xFFFF8001FFFFFFFF;0x1FFFFFFFF;0xFF800D1F80000000;0xFFFFFE007FFFF;0xFFFE03FFFFFFE000;0x10000000FFFFFFFF;0xFFFFEF801FFBE000;0x1FEE000003FFFFF;0xFFFFF88FFFFFE000;0xA7CC5FFFFFFF;0xCFCFC00380FFE700;0xFFFFFFFFEFEFE00F;0xFFFFFFFFE07FFEFF;0xFFFFFFFFFFFFFFFF;0xFFFFE0000000FFFF;0xFFFFFFFFFFFFFFFF;0xFFFFFFFFFFFFFFFF;0xFFFFFFFFFFFFFFFF;0xFFFFFFFFFFFFFFFF;0xFFFFFFFFFFFFFFFF;0xFFFFFFFFFFFFFFFF;0xFFFFFFFFFFFFFFFF;0xFFFFFFFFFFFFFFFF;0xFFFFFFFFFFFFFFFF;0xFFFFFFFFFFFFFFFF;0xFFFFFFFFFFFFFFFF;0xFFFFFFFFFFFFFFFF;0xFFFFFFFFFFFFFFFF;0xFFFFFFFFFFFFFFFF;0xFFFFFFFFFFFFFFFF;0xFFFFFFFFFFFFFFFF;0xFFFFFFFFFFFFFFFF;0x1FFF])))
  (If (BlockIs 64 0xAA 0xC8D 0x11)
    (Return (Or (Or (Le 0xD7A3) (And (Ge 0xD7B0) (Le 0xD7C6))) (And (Ge 0xD7CB) (Le 0xD7FB))))
  (If (BlockIs 64 0xAA 0xC8D 0x13)
    (If (Lt 0xF900)
      (Return No)
    (Assume (Le 0xFBAD)
    (Return (TableBit 0xF900 0x0 [0xFFFFFFFFFFFFFFFF;0xFFFFFFFFFFFFFFFF;0xFFFFFFFFFFFFFFFF;0xFFFFFFFFFFFFFFFF;0xFFFFFFFFFFFFFFFF;0xFFFF3FFFFFFFFFFF;0xFFFFFFFFFFFFFFFF;0x3FFFFFF;0x5F7FFDFFA0F8007F;0xFFFFFFFFFFFFFFDB;0x3FFFFFFFFFFF]))))
  (If (BlockIs 64 0xAA 0xC8D 0x14)
    (If (Gt 0x10838)
      (Return No)
    (Assume (Ge 0xFBAE)
    (Return (TableBit 0xFBAE 0xFBAE [0xFFFFFFE00000000F;0xFFFFFFFFFFFFFFFF;0xFFFFFFFFFFFFFFFF;0xFFFFFFFFFFFFFFFF;0xFFFFFFFFFFFFFFFF;0xFFFFFFFFFFFFFFFF;0xFFFFFFFC0000FFFF;0xFFFFFFF3FFFFFFFF;0x3FFFFFF;0x3FFC;0x0;0xFFFFFFFFFFFFFF7C;0xFFFFFFFFFFFFFFFF;0xFFF8000000007FFF;0xFF001FFFFFF81FFF;0xFFFFFFFFFFFFFFFF;0x73F3F3F1FFFF;0xFDFFFFFFBFFC0000;0xFFFCFFFEDFFF;0xFFFFFFFFFFFC0000;0xFFFFFFFFFFFFFFFF;0x1FFF;0x0;0x0;0x0;0x0;0x0;0xFFFC7FFFFFFC0000;0x7FFFFFFFF;0x8003FFFFFFFC0000;0xFFFFFFFC0FF7FFFF;0xFFFCFFFFFFFC00FF;0x3FC3FFFFF;0xFFFFFFFFFFFC0000;0xFFFFFFFFFFFFFFFF;0xFFFFFFFFFFFF;0xFFFFFC3FFFFFFFFC;0x3FFFFFFFFFC3FFF;0x3FFFFFFFFFFFFC;0xFFEFFEDFDFFFDFFC;0x6FEF;0xFFFFFFFFFFFC0000;0xFFFFFFFFFFFFFFFF;0xFFFFFFFFFFFFFFFF;0xFFFFFFFFFFFFFFFF;0xFFFFFFFFFFFFFFFF;0x3FC00FFFFFC01FF;0xFFFFFFFFFEFC0000;0x1FF7;0xFFFFFFFFF4FC0000;0x6FF]))))
  (If (BlockIs 64 0xAA 0xC8D 0x15)
    (If (Lt 0x1083C)
      (Return No)
    (Assume (Le 0x114C7)
    (Return (TableBit 0x1083C 0x1083C [0x7FFFFF003FFFFF9;0x7FFFFFFF0;0x37FFFF000000000;0x3FFFFFF003FFFFF0;0x0;0xFFFFFFFFFFFFFF0;0xC;0x3FFFFFFEEF00010;0xFFFFFFF000000000;0x1FFFFFFF1;0x1FFFFFFEFF0;0x3FFFFFFFFFFFFF0;0x7FFFF003FFFFF0;0x3FFFF0;0x0;0xFFFFFFFFFFFFFFF0;0x1FFF;0x7FFFFFFFFFFFF0;0x7FFFFFFFFFFFF0;0xFFFFFFFFF0;0x0;0x0;0x0;0x0;0x0;0x303FFFFFFFFFF0;0x0;0xFFF00801FFFFFFF0;0xFFF00000000003FF;0xFFF000000000003F;0x7FFFFF0000001FF;0xFFFFFFFFFFFFF80;0x260000000000000;0xFFFFFFFFFFF80;0x1FFFFFF00000;0x7FFFFFFFF80;0x47FFFFFFFF00900;0x7FFFFFFFFFFF80;0x1400001E0;0xFFFFFFBFFFF0;0x18;0xFFF01FFBFFFBD7F0;0x7FFFFFFFF;0x3EDFDFFFFF99FE00;0x3E00100002;0x0;0x0;0x1FFFFFFFFFFFFF0;0x3800007800;0xFFFFFFFFFFFF0;0xB00]))))
  (If (BlockIs 64 0xAA 0xC8D 0x16)
    (If (Lt 0x11580)
      (Return No)
    (Assume (Le 0x12154)
    (Return (TableBit 0x11580 0x0 [0x7FFFFFFFFFFF;0xF000000;0xFFFFFFFFFFFF;0x10;0x10007FFFFFFFFFF;0x0;0x7FFFFFF;0x7F;0x0;0x0;0xFFFFFFFFFFF;0x0;0xFFFFFFFF00000000;0x80000000FFFFFFFF;0x8000FFFFFF6FF27F;0x2;0xFFFFFCFF00000000;0xA0001FFFF;0x407FFFFFFFFF801;0xFFFFFFFFF0010000;0xFFFF0000200003FF;0x1FFFFFFFFFFFFFF;0x0;0x0;0x0;0x0;0x7FFFFFFFFDFF;0xFFFC000000000001;0xFFFF;0x0;0x1FFFFFFFFFB7F;0xFFFFFDBF00000040;0x10003FF;0x0;0x0;0x0;0x0;0x7FFFF00000000;0xFFFFFFFFDFFF4;0x0;0x1000000000000;0x0;0xFFFFFFFFFFFFFFFF;0xFFFFFFFFFFFFFFFF;0xFFFFFFFFFFFFFFFF;0xFFFFFFFFFFFFFFFF;0xFFFFFFFFFFFFFFFF;0x1FFFFF]))))
  (If (BlockIs 64 0xAA 0xC8D 0x17)
    (Return (Or (Le 0x12399) (And (Ge 0x12480) (Le 0x12543))))
  (If (BlockIs 64 0xAA 0xC8D 0x18)
    (Return (Or (Or (And (Ge 0x12F90) (Le 0x12FF0)) (And (Ge 0x13000) (Le 0x1342F))) (And (Ge 0x13441) (Le 0x13446))))
  (If (BlockIs 64 0xAA 0xC8D 0x19)
    (Return (And (Ge 0x14400) (Le 0x14646)))
  (If (BlockIs 64 0xAA 0xC8D 0x1C)
    (If (Or (Lt 0x16800) (Gt 0x16B8F))
      (Return No)
    (Return (TableBit 0x16800 0x0 [0xFFFFFFFFFFFFFFFF;0xFFFFFFFFFFFFFFFF;0xFFFFFFFFFFFFFFFF;0xFFFFFFFFFFFFFFFF;0xFFFFFFFFFFFFFFFF;0xFFFFFFFFFFFFFFFF;0xFFFFFFFFFFFFFFFF;0xFFFFFFFFFFFFFFFF;0x1FFFFFFFFFFFFFF;0xFFFF00007FFFFFFF;0x7FFFFFFFFFFFFFFF;0x3FFFFFFF0000;0xFFFFFFFFFFFF;0xE0FFFFF80000000F;0xFFFF])))
  (If (BlockIs 64 0xAA 0xC8D 0x1D)
    (If (Lt 0x16E40)
      (Return No)
    (Assume (Le 0x1792F)
    (Return (TableBit 0x16E40 0x0 [0xFFFFFFFFFFFFFFFF;0x0;0x0;0xFFFFFFFFFFFFFFFF;0x107FF;0xFFF80000;0xB00000000;0xFFFFFFFFFFFFFFFF;0xFFFFFFFFFFFFFFFF;0xFFFFFFFFFFFFFFFF;0xFFFFFFFFFFFFFFFF;0xFFFFFFFFFFFFFFFF;0xFFFFFFFFFFFFFFFF;0xFFFFFFFFFFFFFFFF;0xFFFFFFFFFFFFFFFF;0xFFFFFFFFFFFFFFFF;0xFFFFFFFFFFFFFFFF;0xFFFFFFFFFFFFFFFF;0xFFFFFFFFFFFFFFFF;0xFFFFFFFFFFFFFFFF;0xFFFFFFFFFFFFFFFF;0xFFFFFFFFFFFFFFFF;0xFFFFFFFFFFFFFFFF;0xFFFFFFFFFFFFFFFF;0xFFFFFFFFFFFFFFFF;0xFFFFFFFFFFFFFFFF;0xFFFFFFFFFFFFFFFF;0xFFFFFFFFFFFFFFFF;0xFFFFFFFFFFFFFFFF;0xFFFFFFFFFFFFFFFF;0xFFFFFFFFFFFFFFFF;0xFFFFFFFFFFFFFFFF;0xFFFFFFFFFFFFFFFF;0xFFFFFFFFFFFFFFFF;0xFFFFFFFFFFFFFFFF;0xFFFFFFFFFFFFFFFF;0xFFFFFFFFFFFFFFFF;0xFFFFFFFFFFFFFFFF;0xFFFFFFFFFFFFFFFF;0xFFFFFFFFFFFFFFFF;0xFFFFFFFFFFFFFFFF;0xFFFFFFFFFFFFFFFF;0xFFFFFFFFFFFFFFFF;0xFFFFFFFFFFFF]))))
  (If (BlockIs 64 0xAA 0xC8D 0x1F)
    (Return (Or (Or (Le 0x187F7) (And (Ge 0x18800) (Le 0x18CD5))) (And (Ge 0x18D00) (Le 0x18D08))))
  (If (BlockIs 64 0xAA 0xC8D 0x22)
    (If (Or (Lt 0x1AFF0) (Gt 0x1B2FB))
      (Return No)
    (Return (TableBit 0x1AFF0 0x1AFF0 [0xFFFFFFFFFFFF6FEF;0xFFFFFFFFFFFFFFFF;0xFFFFFFFFFFFFFFFF;0xFFFFFFFFFFFFFFFF;0x7FFFFFFFFFFFF;0xF0002700000004;0xFFFFFFFFFFFFFFFF;0xFFFFFFFFFFFFFFFF;0xFFFFFFFFFFFFFFFF;0xFFFFFFFFFFFFFFFF;0xFFFFFFFFFFFFFFFF;0xFFFFFFFFFFFFFFFF;0xFFF])))
  (If (BlockIs 64 0xAA 0xC8D 0x23)
    (If (Or (Lt 0x1BC00) (Gt 0x1BC99))
      (Return No)
    (If (BlockIs 64 0x1BC00 0x40 0x1)
      (Return (And (Le 0x1BC7C) (BlockIn 64 0x1BC40 0x1 0x1FFF07FFFFFFFFFF)))
    (If (BlockIs 64 0x1BC00 0x40 0x2)
      (Return (BlockIn 32 0x1BC80 0x1 0x3FF01FF))
    (Return Yes))))
  (If (BlockIs 64 0xAA 0xC8D 0x25)
    (If (Or (Lt 0x1D400) (Gt 0x1D7CB))
      (Return No)
    (Return (TableBit 0x1D400 0x0 [0xFFFFFFFFFFFFFFFF;0xFFFFFFFFFFDFFFFF;0xEBFFDE64DFFFFFFF;0xFFFFFFFFFFFFFFEF;0x7BFFFFFFDFDFE7BF;0xFFFFFFFFFFFDFC5F;0xFFFFFFFFFFFFFFFF;0xFFFFFFFFFFFFFFFF;0xFFFFFFFFFFFFFFFF;0xFFFFFFFFFFFFFFFF;0xFFFFFF3FFFFFFFFF;0xF7FFFFFFF7FFFFFD;0xFFDFFFFFFFDFFFFF;0xFFFF7FFFFFFF7FFF;0xFFFFFDFFFFFFFDFF;0xFF7])))
  (If (BlockIs 64 0xAA 0xC8D 0x26)
    (If (Or (Lt 0x1DF00) (Gt 0x1E94B))
      (Return No)
    (Return (TableBit 0x1DF00 0x0 [0x7E07FFFFFFF;0x0;0x0;0x0;0xFFFF000000000000;0x3FFFFFFFFFFF;0x0;0x0;0x3F801FFFFFFFFFFF;0x4000;0x0;0x0;0x0;0x0;0x3FFFFFFF0000;0xFFFFFFFFFFF;0x0;0x0;0x0;0x0;0x0;0x0;0x0;0xFFFFFFF0000;0x0;0x0;0x0;0x0;0x0;0x0;0x0;0x0;0x0;0x0;0x0;0x7FFF6F7F00000000;0xFFFFFFFFFFFFFFFF;0xFFFFFFFFFFFFFFFF;0xFFFFFFFFFFFFFFFF;0x1F;0xFFFFFFFFFFFFFFFF;0x80F])))
  (If (BlockIs 64 0xAA 0xC8D 0x27)
    (If (Or (Lt 0x1EE00) (Gt 0x1EEBB))
      (Return No)
    (If (BlockIs 64 0x1EE00 0x40 0x0)
      (Return (And (Le 0x1EE3B) (BlockIn 64 0x1EE00 0x1 0xAF7FE96FFFFFFEF)))
    (If (BlockIs 64 0x1EE00 0x40 0x1)
      (Return (And (And (Ge 0x1EE42) (Le 0x1EE7E)) (BlockIn 64 0x1EE42 0x1 0x17BDFDE5AAA5BAA1)))
    (If (BlockIs 64 0x1EE00 0x40 0x2)
      (Return (BlockIn 64 0x1EE80 0x1 0xFFFFBEE0FFFFBFF))
    Unreachable))))
  (If (BlockIs 64 0xAA 0xC8D 0x28)
    (Return (Ge 0x20000))
  (If (BlockIs 64 0xAA 0xC8D 0x36)
    (Return (Or (Le 0x2A6DF) (Ge 0x2A700)))
  (If (BlockIs 64 0xAA 0xC8D 0x37)
    (Return (Or (Or (Le 0x2B739) (And (Ge 0x2B740) (Le 0x2B81D))) (Ge 0x2B820)))
  (If (BlockIs 64 0xAA 0xC8D 0x39)
    (Return (Or (Le 0x2CEA1) (Ge 0x2CEB0)))
  (If (BlockIs 64 0xAA 0xC8D 0x3B)
    (Return (Le 0x2EBE0))
  (If (BlockIs 64 0xAA 0xC8D 0x3C)
    (Return (And (Ge 0x2F800) (Le 0x2FA1D)))
  (If (BlockIs 64 0xAA 0xC8D 0x3D)
    (Return (Ge 0x30000))
  (If (BlockIs 64 0xAA 0xC8D 0x3E)
    (Return (Or (Le 0x3134A) (Ge 0x31350)))
  Unreachable)))))))))))))))))))))))))))))))))).
(** include/muu/impl/unicode_char32_t.h:563-722 *)
Definition is_non_ascii_lowercase_32 : stmt :=
  (If (Or (Lt 0xAA) (Gt 0xFF5A))
    (Return No)
  (If (BlockIn 64 0xAA 0x3FB 0x3FFFF9FFFFFFF02C)
    (Return No)
  (If (BlockIs 64 0xAA 0x3FB 0x0)
    (If (Gt 0x4A3)
      (Return No)
    (Assume (Ge 0xAA)
    (Return (TableBit 0xAA 0xAA [0xFFE0000000010801;0xAAAAAAAAAABFDFFF;0xAAAAAAAAD5556AAA;0x4A93890C4A752AAA;0xAAAD55549039944B;0xAAAAAAAAAAAA8A6A;0xFFFFFFEAA164FEAA;0xFFFFFBFFFFFFFFFF;0x7C0000000C07FFF;0x0;0x8000000;0x40000F2280;0xAAAAB8DFFFFFFFFC;0x64BEA;0xAABFFFFFFFFFFFC0;0x2AAAAAA00AAAAAA]))))
  (If (BlockIs 64 0xAA 0x3FB 0x1)
    (If (Gt 0x588)
      (Return No)
    (Assume (Ge 0x4A5)
    (If (BlockIs 64 0x4A5 0x40 0x0)
      (Return (And (Le 0x4E3) (BlockIn 64 0x4A5 0x1 0x555556AAA5555555)))
    (If (BlockIs 64 0x4A5 0x40 0x1)
      (Return (And (Le 0x523) (RemIs 32 0x1 0x2 0x0)))
    (If (BlockIs 64 0x4A5 0x40 0x2)
      (Return (BlockIn 64 0x525 0x1 0xF800000000000555))
    (Return Yes))))))
  (If (BlockIs 64 0xAA 0x3FB 0x4)
    (Return (Or (Or (And (Ge 0x10D0) (Le 0x10FA)) (And (Ge 0x10FC) (Le 0x10FF))) (And (Ge 0x13F8) (Le 0x13FD))))
  (If (BlockIs 64 0xAA 0x3FB 0x6)
    (Return (Ge 0x1C80))
  (If (BlockIs 64 0xAA 0x3FB 0x7)
    (If (Gt 0x207F)
      (Return No)
    (Assume (Ge 0x1C87)
    (Return (TableBit 0x1C87 0x1C87 [0x3;0xFE00000000000000;0xFFFFFFFFFFFFFFFF;0xFFFFFFFFFFFFFFFF;0x1FFFFFFFFFFFFFF;0x5400000000000000;0x5555555555555555;0x5555555555555555;0x55555555557FD555;0xFF55555555555555;0x7E01FE01FE007E01;0xFE7FFE01FE01FE00;0xB881BE01FE01FE01;0x1B801FE019E01;0x0;0x100040000000000]))))
  (If (BlockIs 64 0xAA 0x3FB 0x8)
    (If (Or (Lt 0x2090) (Gt 0x2184))
      (Return No)
    (If (BlockIs 64 0x2090 0x40 0x0)
      (Return (Le 0x209C))
    (If (BlockIs 64 0x2090 0x40 0x1)
      (Return (And (Ge 0x210A) (BlockIn 32 0x210A 0x1 0x31)))
    (If (BlockIs 64 0x2090 0x40 0x2)
      (Return (And (And (Ge 0x2113) (Le 0x214E)) (BlockIn 64 0x2113 0x1 0x878064210000001)))
    (If (BlockIs 64 0x2090 0x40 0x3)
      (Return (Or (And (Ge 0x2170) (Le 0x217F)) (Eq 0x2184)))
    Unreachable)))))
  (If (BlockIs 64 0xAA 0x3FB 0x9)
    (Return (And (Ge 0x24D0) (Le 0x24E9)))
  (If (BlockIs 64 0xAA 0x3FB 0xA)
    (If (Or (Lt 0x2C30) (Gt 0x2C71))
      (Return No)
    (Return (Or (Eq 0x2C71) (And (Le 0x2C6C) (BlockIn 64 0x2C30 0x1 0x1562FFFFFFFFFFFF)))))
  (If (BlockIs 64 0xAA 0x3FB 0xB)
    (If (Gt 0x2D2D)
      (Return No)
    (Assume (Ge 0x2C73)
    (If (BlockIs 64 0x2C73 0x40 0x0)
      (Return (And (Le 0x2CB1) (BlockIn 64 0x2C73 0x1 0x55555555555547FB)))
    (If (BlockIs 64 0x2C73 0x40 0x1)
      (Return (And (Le 0x2CEE) (BlockIn 64 0x2CB3 0x1 0xA03555555555555)))
    (If (BlockIs 64 0x2C73 0x40 0x2)
      (Return (Or (Or (Or (And (Ge 0x2D00) (Le 0x2D25)) (Eq 0x2CF3)) (Eq 0x2D27)) (Eq 0x2D2D)))
    Unreachable)))))
  (If (BlockIs 64 0xAA 0x3FB 0x29)
    (If (Lt 0xA641)
      (Return No)
    (Assume (Le 0xA7D7)
    (Return (TableBit 0xA641 0xA641 [0x155555555555;0x1D555555;0x0;0x5555D55400000000;0x4AFFD55555555555;0x55504155555D2855;0x550285]))))
  (If (BlockIs 64 0xAA 0x3FB 0x2A)
    (If (Or (Lt 0xA7D9) (Gt 0xABBF))
      (Return No)
    (Return (TableBit 0xA7D9 0xA7D9 [0x3AE000001;0x0;0x0;0x0;0x0;0x0;0x0;0x0;0x0;0x0;0x0;0x0;0x0;0xFFFFFFFFFF800000;0xFFFFFFFFFF81FFFB;0x7FFFFFFFFF])))
  (If (BlockIs 64 0xAA 0x3FB 0x3E)
    (Return (And (And (Ge 0xFB00) (Le 0xFB17)) (BlockIn 32 0xFB00 0x1 0xF8007F)))
  (If (BlockIs 64 0xAA 0x3FB 0x3F)
    (Return (Ge 0xFF41))
  Unreachable))))))))))))))).
(** include/muu/impl/unicode_char32_t.h:731-899 *)
Definition is_non_ascii_number_32 : stmt :=
  (If (Or (Lt 0x660) (Gt 0x1FBF9))
    (Return No)
  (If (BlockIn 64 0x660 0x7D7 0x47FFDFE07FCFFFD0)
    (Return No)
  (If (BlockIs 64 0x660 0x7D7 0x0)
    (If (Gt 0xDEF)
      (Return No)
    (Assume (Ge 0x660)
    (Return (TableBit 0x660 0x660 [0x3FF;0x0;0x3FF0000;0x0;0x0;0x3FF00000000;0x0;0x0;0x0;0x0;0x0;0x0;0xFFC0;0x0;0xFFC0;0x0;0xFFC0;0x0;0xFFC0;0x0;0xFFC0;0x0;0xFFC0;0x0;0xFFC0;0x0;0xFFC0;0x0;0xFFC0;0x0;0xFFC0]))))
  (If (BlockIs 64 0x660 0x7D7 0x1)
    (If (Or (Lt 0xE50) (Gt 0x1099))
      (Return No)
    (Return (TableBit 0xE50 0xE50 [0x3FF;0x0;0x3FF;0x3FF0000;0x0;0x0;0x0;0x3FF000000000000;0x0;0x3FF])))
  (If (BlockIs 64 0x660 0x7D7 0x2)
    (If (Or (Lt 0x16EE) (Gt 0x1C59))
      (Return No)
    (Return (TableBit 0x16EE 0x16EE [0x7;0x0;0x0;0xFFC000000000000;0xFFC00000000;0x0;0x0;0x0;0x0;0x3FF000000;0x0;0xFFC00000000;0x0;0x0;0xFFC0FFC0000;0x0;0x0;0xFFC00000000;0x0;0xFFC;0x0;0xFFC0FFC0000])))
  (If (BlockIs 64 0x660 0x7D7 0x3)
    (Return (And (And (Ge 0x2160) (Le 0x2188)) (BlockIn 64 0x2160 0x1 0x1E7FFFFFFFF)))
  (If (BlockIs 64 0x660 0x7D7 0x5)
    (Return (And (And (Ge 0x3007) (Le 0x303A)) (BlockIn 64 0x3007 0x1 0xE0007FC000001)))
  (If (BlockIs 64 0x660 0x7D7 0x14)
    (If (Or (Lt 0xA620) (Gt 0xAA59))
      (Return No)
    (Return (TableBit 0xA620 0xA620 [0x3FF;0x0;0x0;0xFFC0;0x0;0x0;0x0;0x0;0x0;0x0;0x3FF000000000000;0x3FF00000000;0x0;0x0;0x3FF000000000000;0x3FF0000;0x3FF000000000000])))
  (If (BlockIs 64 0x660 0x7D7 0x15)
    (Return (And (Ge 0xABF0) (Le 0xABF9)))
  (If (BlockIs 64 0x660 0x7D7 0x1F)
    (Return (And (Ge 0xFF10) (Le 0xFF19)))
  (If (BlockIs 64 0x660 0x7D7 0x20)
    (If (Gt 0x104A9)
      (Return No)
    (Assume (Ge 0x10140)
    (Return (TableBit 0x10140 0x0 [0x1FFFFFFFFFFFFF;0x0;0x0;0x0;0x0;0x0;0x0;0x0;0x402;0x0;0x3E0000;0x0;0x0;0x3FF00000000]))))
  (If (BlockIs 64 0x660 0x7D7 0x21)
    (Return (Or (And (Ge 0x10D30) (Le 0x10D39)) (And (Ge 0x11066) (Le 0x1106F))))
  (If (BlockIs 64 0x660 0x7D7 0x22)
    (If (Or (Lt 0x110F0) (Gt 0x11739))
      (Return No)
    (Return (TableBit 0x110F0 0x110F0 [0x3FF;0xFFC0;0x0;0x3FF00000000;0x0;0x0;0x0;0x0;0x3FF;0x0;0x0;0x0;0x0;0x3FF00000000;0x0;0x3FF00000000;0x0;0x0;0x0;0x0;0x0;0x3FF00000000;0x0;0x3FF0000;0x0;0x3FF])))
  (If (BlockIs 64 0x660 0x7D7 0x23)
    (If (Or (Lt 0x118E0) (Gt 0x11F59))
      (Return No)
    (Return (TableBit 0x118E0 0x118E0 [0x3FF;0x3FF000000000000;0x0;0x0;0x0;0x0;0x0;0x0;0x0;0x0;0x0;0x0;0x0;0x3FF000000000000;0x0;0x0;0x0;0x3FF000000000000;0x0;0x3FF;0x0;0x0;0x0;0x0;0x0;0x3FF000000000000])))
  (If (BlockIs 64 0x660 0x7D7 0x24)
    (Return (And (Ge 0x12400) (Le 0x1246E)))
  (If (BlockIs 64 0x660 0x7D7 0x2D)
    (Return (Or (Or (And (Ge 0x16A60) (Le 0x16A69)) (And (Ge 0x16AC0) (Le 0x16AC9))) (And (Ge 0x16B50) (Le 0x16B59))))
  (If (BlockIs 64 0x660 0x7D7 0x3B)
    (Return (And (Ge 0x1D7CE) (Le 0x1D7FF)))
  (If (BlockIs 64 0x660 0x7D7 0x3C)
    (Return (Or (And (Ge 0x1E140) (Le 0x1E149)) (And (Ge 0x1E2F0) (Le 0x1E2F9))))
  (If (BlockIs 64 0x660 0x7D7 0x3D)
    (Return (Or (And (Ge 0x1E4F0) (Le 0x1E4F9)) (And (Ge 0x1E950) (Le 0x1E959))))
  (If (BlockIs 64 0x660 0x7D7 0x3F)
    (Return (Ge 0x1FBF0))
  Unreachable)))))))))))))))))))).
(** include/muu/impl/unicode_char32_t.h:908-1071 *)
Definition is_non_ascii_uppercase_32 : stmt :=
  (If (Or (Lt 0xC0) (Gt 0xFF3A))
    (Return No)
  (If (BlockIn 64 0xC0 0x3FA 0x7FFFF9FFFFFFF024)
    (Return No)
  (If (BlockIs 64 0xC0 0x3FA 0x0)
    (If (Gt 0x4B8)
      (Return No)
    (Assume (Ge 0xC0)
    (Return (TableBit 0xC0 0x0 [0x7F7FFFFF;0xAA55555555555555;0x2B555555555554AA;0x11AED2D5B1DBCED6;0x55D255554AAAA490;0x6C05555555555555;0x557A;0x0;0x0;0x0;0x8045000000000000;0xFFBFFFED740;0xE6905555551C8000;0xFFFFFFFFFFFF;0x5555555500000000;0x155555555555401]))))
  (If (BlockIs 64 0xC0 0x3FA 0x1)
    (If (Gt 0x556)
      (Return No)
    (Assume (Ge 0x4BA)
    (If (BlockIs 64 0x4BA 0x40 0x0)
      (Return (And (Le 0x4F8) (BlockIn 64 0x4BA 0x1 0x55555555554AAAD5)))
    (If (BlockIs 64 0x4BA 0x40 0x1)
      (Return (BlockIn 64 0x4FA 0x1 0xFF95555555555555))
    (Return Yes)))))
  (If (BlockIs 64 0xC0 0x3FA 0x3)
    (Return (Ge 0x10A0))
  (If (BlockIs 64 0xC0 0x3FA 0x4)
    (If (Gt 0x13F5)
      (Return No)
    (Assume (Ge 0x10A8)
    (Return (TableBit 0x10A8 0x10A8 [0x20BFFFFFFF;0x0;0x0;0x0;0x0;0x0;0x0;0x0;0x0;0x0;0x0;0xFF00000000000000;0xFFFFFFFFFFFFFFFF;0x3FFF]))))
  (If (BlockIs 64 0xC0 0x3FA 0x6)
    (Return (Ge 0x1C90))
  (If (BlockIs 64 0xC0 0x3FA 0x7)
    (If (Gt 0x1FFB)
      (Return No)
    (Assume (Ge 0x1C96)
    (Return (TableBit 0x1C96 0x1C96 [0x39FFFFFFFFF;0x0;0x0;0x0;0x0;0x5555540000000000;0x5555555555555555;0x5555555555555555;0x5555555555555500;0x3FC015555555555;0xFC03FC03FC00FC;0x3FC02A8;0x3C003C00000000;0x3C007C003C]))))
  (If (BlockIs 64 0xC0 0x3FA 0x8)
    (If (Or (Lt 0x2102) (Gt 0x2183))
      (Return No)
    (If (Eq 0x2183)
      (Return Yes)
    (If (BlockIs 64 0x2102 0x40 0x0)
      (Return (And (Le 0x213F) (BlockIn 64 0x2102 0x1 0x3003CF540F89CE21)))
    (If (BlockIs 64 0x2102 0x40 0x1)
      (Return (And (And (Ge 0x2145) (Le 0x216F)) (BlockIn 64 0x2145 0x1 0x7FFF8000001)))
    Unreachable))))
  (If (BlockIs 64 0xC0 0x3FA 0x9)
    (Return (And (Ge 0x24B6) (Le 0x24CF)))
  (If (BlockIs 64 0xC0 0x3FA 0xA)
    (If (Or (Lt 0x2C00) (Gt 0x2C75))
      (Return No)
    (If (BlockIs 64 0x2C00 0x40 0x0)
      (Return (Le 0x2C2F))
    (If (BlockIs 64 0x2C00 0x40 0x1)
      (Return (And (Ge 0x2C60) (BlockIn 32 0x2C60 0x1 0x25EA9D)))
    Unreachable)))
  (If (BlockIs 64 0xC0 0x3FA 0xB)
    (If (Gt 0x2CF2)
      (Return No)
    (Assume (Ge 0x2C7E)
    (If (BlockIs 64 0x2C7E 0x40 0x0)
      (Return (And (Le 0x2CBC) (BlockIn 64 0x2C7E 0x1 0x5555555555555557)))
    (If (BlockIs 64 0x2C7E 0x40 0x1)
      (Return (BlockIn 64 0x2CBE 0x1 0x10A01555555555))
    Unreachable))))
  (If (BlockIs 64 0xC0 0x3FA 0x29)
    (If (Or (Lt 0xA640) (Gt 0xA7C2))
      (Return No)
    (Return (TableBit 0xA640 0x0 [0x155555555555;0x5555555;0x0;0x5554555400000000;0x6A00555555555555;0x555F7D5555452855;0x5])))
  (If (BlockIs 64 0xC0 0x3FA 0x2A)
    (Return (And (Le 0xA7F5) (BlockIn 64 0xA7C4 0x1 0x200000014102F)))
  (If (BlockIs 64 0xC0 0x3FA 0x3F)
    (Return (Ge 0xFF21))
  Unreachable))))))))))))))).
(** include/muu/impl/unicode_char32_t.h:1080-1109 *)
Definition is_non_ascii_whitespace_32 : stmt :=
  (If (Or (Lt 0x85) (Gt 0x3000))
    (Return No)
  (If (BlockIn 64 0x85 0xBE 0x7FFFFBFFDFFFFFFE)
    (Return No)
  (If (Or (Eq 0x1680) (Eq 0x3000))
    (Return Yes)
  (If (BlockIs 64 0x85 0xBE 0x0)
    (Return (Or (Eq 0x85) (Eq 0xA0)))
  (If (BlockIs 64 0x85 0xBE 0x2A)
    (If (Or (Lt 0x2000) (Gt 0x205F))
      (Return No)
    (Return (Or (Eq 0x205F) (And (Le 0x202F) (BlockIn 64 0x2000 0x1 0x8300000007FF)))))
  Unreachable))))).
(** include/muu/impl/unicode_char32_t.h:1118-1121 *)
Definition is_not_code_point_32 : stmt :=
  (Return (Gt 0x10FFFF)).
(** include/muu/impl/unicode_char32_t.h:1130-1133 *)
Definition is_not_hyphen_32 : stmt :=
  (Call is_ascii_hyphen_32
    (Return No)
  (Call is_non_ascii_hyphen_32
    (Return No)
  (Return Yes))).
(** include/muu/impl/unicode_char32_t.h:1142-1145 *)
Definition is_not_letter_32 : stmt :=
  (Call is_ascii_letter_32
    (Return No)
  (Call is_non_ascii_letter_32
    (Return No)
  (Return Yes))).
(** include/muu/impl/unicode_char32_t.h:1154-1157 *)
Definition is_not_lowercase_32 : stmt :=
  (Call is_ascii_lowercase_32
    (Return No)
  (Call is_non_ascii_lowercase_32
    (Return No)
  (Return Yes))).
(** include/muu/impl/unicode_char32_t.h:1166-1169 *)
Definition is_not_number_32 : stmt :=
  (Call is_ascii_number_32
    (Return No)
  (Call is_non_ascii_number_32
    (Return No)
  (Return Yes))).
(** include/muu/impl/unicode_char32_t.h:1178-1181 *)
Definition is_not_uppercase_32 : stmt :=
  (Call is_ascii_uppercase_32
    (Return No)
  (Call is_non_ascii_uppercase_32
    (Return No)
  (Return Yes))).
(** include/muu/impl/unicode_char32_t.h:1190-1193 *)
Definition is_not_whitespace_32 : stmt :=
  (Call is_ascii_whitespace_32
    (Return No)
  (Call is_non_ascii_whitespace_32
    (Return No)
  (Return Yes))).
(** include/muu/impl/unicode_char32_t.h:1202-1205 *)
Definition is_code_point_32 : stmt :=
  (Return (Le 0x10FFFF)).
(** include/muu/impl/unicode_char32_t.h:1214-1217 *)
Definition is_code_point_boundary_32 : stmt :=
  (Return (Le 0x10FFFF)).
(** include/muu/impl/unicode_char32_t.h:1226-1474 *)
Definition is_combining_mark_32 : stmt :=
  (If (Or (Lt 0x300) (Gt 0xE01EF))
    (Return No)
  (If (BlockIn 64 0x300 0x37FC 0x7FFFFFFFFFFFFE02)
    (Return No)
  (If (BlockIs 64 0x300 0x37FC 0x0)
    (If (Gt 0x309A)
      (Return No)
    (Assume (Ge 0x300)
    (Return (TableBit 0x300 0x0 [0xFFFFFFFFFFFFFFFF;0xFFFFFFFFFFFF;0x0;0x0;0x0;0x0;0xF8;0x0;0x0;0x0;0xBFFFFFFFFFFE0000;0xB6;0x7FF0000;0x10000FFFFF800;0x0;0x3D9F9FC00000;0xFFFF000000020000;0x7FF;0x1FFC000000000;0x200FF80000000000;0x3EEFFBC00000;0xE000000;0xFF000000;0xFFFFFFFBFFFFFC00;0xDC0000000000000F;0xC00FEFFFF;0xD00000000000000E;0x4000000C0080399F;0xD00000000000000E;0x23000000023987;0xD00000000000000E;0xFC00000C00003BBF;0xD00000000000000E;0xC00E0399F;0xC000000000000004;0x803DC7;0xD00000000000001F;0xC00603DDF;0xD00000000000000E;0x8000C00603DDF;0xD80000000000000F;0xC00803DDF;0xE;0xC0000FF5F8400;0x7F2000000000000;0x7F80;0x1FF2000000000000;0x7F00;0xC2A0000003000000;0xFFFE000000000000;0x1FFFFFFFFEFFE0DF;0x40;0x7FFFF80000000000;0x1E3F9DC3C00000;0x3C00BFFC;0x0;0x0;0x0;0x0;0x0;0x0;0x0;0x0;0x0;0x0;0xE0000000;0x0;0x0;0x0;0x0;0x0;0x0;0x0;0x0;0x0;0x0;0x0;0x0;0x0;0x0;0x1C0000003C0000;0xC0000000C0000;0xFFF0000000000000;0x200FFFFF;0xB800;0x0;0x20000000060;0x0;0xFFF0FFF00000000;0x0;0x0;0x0;0xF800000;0x9FFFFFFF7FE00000;0xBFFF000000000000;0x7FFF;0xFFF000000000001F;0xFF8000000001F;0x3FFE00000007;0xFFFC000000000;0xFFFFF000000000;0x0;0x0;0x39021FFFFF70000;0x0;0x0;0x0;0xFFFFFFFFFFFFFFFF;0x0;0x0;0x0;0x0;0x0;0x0;0x0;0x0;0x0;0x0;0x0;0x1FFE21FFF0000;0x0;0x0;0x0;0x0;0x0;0x0;0x0;0x0;0x0;0x0;0x0;0x0;0x0;0x0;0x0;0x0;0x0;0x0;0x0;0x0;0x0;0x0;0x0;0x0;0x0;0x0;0x0;0x0;0x0;0x0;0x0;0x0;0x0;0x0;0x0;0x0;0x0;0x0;0x0;0x0;0x0;0x0;0x0;0x0;0x0;0x0;0x0;0x3800000000000;0x0;0x8000000000000000;0x0;0xFFFFFFFF00000000;0x0;0x0;0x0;0x0;0x0;0x0;0x0;0x0;0xFC0000000000;0x0;0x6000000]))))
  (If (BlockIs 64 0x300 0x37FC 0x2)
    (If (Or (Lt 0xA66F) (Gt 0xAAEF))
      (Return No)
    (Return (TableBit 0xA66F 0xA66F [0x1800000007FE1;0x0;0x6;0x0;0x0;0x0;0x21F0000010880000;0x0;0x60000;0xFFFE0000007FFFE0;0x7F80000000010007;0x1FFF000000;0x1E0000;0x4000000003FFF0;0xFC00000000000000;0x601000FF;0x7000;0xF00000000005833A;0x1])))
  (If (BlockIs 64 0x300 0x37FC 0x3)
    (Return (Or (Or (And (Ge 0xAAF5) (Le 0xAAF6)) (And (Ge 0xABE3) (Le 0xABEA))) (And (Ge 0xABEC) (Le 0xABED))))
  (If (BlockIs 64 0x300 0x37FC 0x4)
    (If (Or (Lt 0xFB1E) (Gt 0x11A99))
      (Return No)
    (Return (TableBit 0xFB1E 0xFB1E [0x1;0x0;0x0;0x0;0x0;0x0;0x0;0x0;0x0;0x0;0x0;0x3FFFC00000000;0x3FFFC;0x0;0x0;0x0;0x0;0x0;0x0;0x0;0x0;0x0;0x0;0x0;0x0;0x0;0x0;0x80000000;0x0;0x0;0x0;0x4;0x0;0x1F000000;0x0;0x0;0x0;0x0;0x0;0x0;0x0;0x0;0x0;0x0;0x0;0x0;0x0;0x0;0x0;0x0;0x0;0x0;0x0;0x0;0x0;0x0;0x0;0x0;0x0;0x3C1B800000000;0x21C000000;0x0;0x0;0x180;0x0;0x0;0x0;0x0;0x0;0x0;0x0;0x0;0x3C0;0x0;0x0;0x0;0x0;0x0;0x6000;0x380000000;0x7FF0000000000;0xF000000000;0x0;0x1C00000000;0x1FFFC000000;0x1E00640000;0x101FFC0000;0x1C00000000;0x180007FFE00;0x1C00200000;0x37807FFE00000;0x0;0x903FFC000;0x0;0x0;0x3C00001FFE;0x200E67F60000000;0x7C7F30;0x0;0x0;0x1FFFF800000;0x1;0x3FFFFC0000;0x0;0x0;0x0;0xC0000007FCFE0000;0x0;0x7FFFC0000;0x0;0x3FFE000;0x8000000000000000;0x3FFF;0x0;0x0;0x0;0x1FFFC000;0x0;0x0;0x0;0x35E6FC0000;0x0;0xF3F8000000000000;0x1FF800000047;0x3FF80201EFE00000;0xFFFF00000000000])))
  (If (BlockIs 64 0x300 0x37FC 0x5)
    (If (Or (Lt 0x11C2F) (Gt 0x13455))
      (Return No)
    (If (BlockIn 64 0x11C2F 0x61 0x7FFFFFFFFFFFFE70)
      (Return No)
    (If (BlockIs 64 0x11C2F 0x61 0x0)
      (Return (And (Le 0x11C3F) (BlockIn 32 0x11C2F 0x1 0x1FEFF)))
    (If (BlockIs 64 0x11C2F 0x61 0x1)
      (Return (And (And (Ge 0x11C92) (Le 0x11CB6)) (BlockIn 64 0x11C92 0x1 0x1FFFBFFFFF)))
    (If (BlockIs 64 0x11C2F 0x61 0x2)
      (Return (And (And (Ge 0x11D31) (Le 0x11D47)) (BlockIn 32 0x11D31 0x1 0x5FDA3F)))
    (If (BlockIs 64 0x11C2F 0x61 0x3)
      (Return (And (And (Ge 0x11D8A) (Le 0x11D97)) (BlockIn 32 0x11D8A 0x1 0x3EDF)))
    (If (BlockIs 64 0x11C2F 0x61 0x7)
      (If (Lt 0x11EF3)
        (Return No)
      (Assume (Le 0x11F36)
      (If (BlockIs 64 0x11EF3 0x40 0x0)
        (Return (And (Le 0x11F03) (BlockIn 32 0x11EF3 0x1 0x1600F)))
      (If (BlockIs 64 0x11EF3 0x40 0x1)
        (Return (Not (Eq 0x11F33)))
      Unreachable))))
    (If (BlockIs 64 0x11C2F 0x61 0x8)
      (Return (And (Le 0x11F42) (BlockIn 32 0x11F37 0x1 0xF8F)))
    (If (BlockIs 64 0x11C2F 0x61 0x3F)
      (Return (And (Ge 0x13440) (BlockIn 32 0x13440 0x1 0x3FFF81)))
    Unreachable)))))))))
  (If (BlockIs 64 0x300 0x37FC 0x6)
    (If (Or (Lt 0x16AF0) (Gt 0x16FF1))
      (Return No)
    (Return (TableBit 0x16AF0 0x16AF0 [0x1F;0x7F;0x0;0x0;0x0;0x0;0x0;0x0;0x0;0x0;0x0;0x0;0x0;0x0;0x0;0x0;0x0;0xFFFFFFFE80000000;0x780FFFFFF;0x10000000000000;0x3])))
  (If (BlockIs 64 0x300 0x37FC 0x7)
    (Return (And (Ge 0x1BC9D) (Le 0x1BC9E)))
  (If (BlockIs 64 0x300 0x37FC 0x8)
    (If (Or (Lt 0x1CF00) (Gt 0x1E94A))
      (Return No)
    (Return (TableBit 0x1CF00 0x0 [0xFFFF3FFFFFFFFFFF;0x7F;0x0;0x0;0x0;0x0;0x0;0x0;0x0;0xF807E3E000000000;0x3C0000000FE7;0x0;0x0;0x1C;0x0;0x0;0x0;0x0;0x0;0x0;0x0;0x0;0x0;0x0;0x0;0x0;0x0;0x0;0x0;0x0;0x0;0x0;0x0;0x0;0x0;0x0;0x0;0x0;0x0;0x0;0x0;0x0;0x0;0x0;0xF87FFFFFFFFFFFFF;0x201FFFFFFFFFFF;0xFFFEF8000010;0x0;0x0;0x0;0x0;0x0;0x0;0x0;0x0;0x0;0x0;0x0;0x0;0x0;0x0;0x0;0x0;0x0;0x0;0x0;0x0;0x0;0x7DBF9FFFF7F;0x0;0x8000;0x0;0x7F000000000000;0x0;0x0;0x0;0x0;0x0;0x400000000000;0xF00000000000;0x0;0x0;0x0;0x0;0x0;0x0;0x0;0xF00000000000;0x0;0x0;0x0;0x0;0x0;0x0;0x0;0x0;0x0;0x0;0x0;0x0;0x0;0x0;0x0;0x7F0000;0x0;0x7F0])))
  (If (BlockIs 64 0x300 0x37FC 0x3F)
    (Return (Ge 0xE0100))
  Unreachable))))))))))).
(** include/muu/impl/unicode_char32_t.h:1483-1486 *)
Definition is_decimal_digit_32 : stmt :=
  (Return (And (Ge 0x30) (Le 0x39))).
(** include/muu/impl/unicode_char32_t.h:1495-1498 *)
Definition is_hexadecimal_digit_32 : stmt :=
  (Return (And (And (Ge 0x30) (Le 0x66)) (BlockIn 64 0x30 0x1 0x7E0000007E03FF))).
(** include/muu/impl/unicode_char32_t.h:1507-1510 *)
Definition is_hyphen_32 : stmt :=
  (Call is_ascii_hyphen_32
    (Return Yes)
  (Call is_non_ascii_hyphen_32
    (Return Yes)
  (Return No))).
(** include/muu/impl/unicode_char32_t.h:1519-1522 *)
Definition is_letter_32 : stmt :=
  (Call is_ascii_letter_32
    (Return Yes)
  (Call is_non_ascii_letter_32
    (Return Yes)
  (Return No))).
(** include/muu/impl/unicode_char32_t.h:1531-1534 *)
Definition is_lowercase_32 : stmt :=
  (Call is_ascii_lowercase_32
    (Return Yes)
  (Call is_non_ascii_lowercase_32
    (Return Yes)
  (Return No))).
(** include/muu/impl/unicode_char32_t.h:1543-1546 *)
Definition is_number_32 : stmt :=
  (Call is_ascii_number_32
    (Return Yes)
  (Call is_non_ascii_number_32
    (Return Yes)
  (Return No))).
(** include/muu/impl/unicode_char32_t.h:1555-1558 *)
Definition is_octal_digit_32 : stmt :=
  (Return (And (Ge 0x30) (Le 0x37))).
(** include/muu/impl/unicode_char32_t.h:1567-1570 *)
Definition is_uppercase_32 : stmt :=
  (Call is_ascii_uppercase_32
    (Return Yes)
  (Call is_non_ascii_uppercase_32
    (Return Yes)
  (Return No))).
(** include/muu/impl/unicode_char32_t.h:1579-1582 *)
Definition is_whitespace_32 : stmt :=
  (Call is_ascii_whitespace_32
    (Return Yes)
  (Call is_non_ascii_whitespace_32
    (Return Yes)
  (Return No))).

(** include/muu/impl/unicode_char16_t.h:34-37 *)
Definition is_ascii_code_point_16 : stmt :=
  (Return (Le 0x7F)).
(** include/muu/impl/unicode_char16_t.h:46-49 *)
Definition is_ascii_hyphen_16 : stmt :=
  (Return (Eq 0x2D)).
(** include/muu/impl/unicode_char16_t.h:58-61 *)
Definition is_ascii_letter_16 : stmt :=
  (Return (Or (And (Ge 0x41) (Le 0x5A)) (And (Ge 0x61) (Le 0x7A)))).
(** include/muu/impl/unicode_char16_t.h:70-73 *)
Definition is_ascii_lowercase_16 : stmt :=
  (Return (And (Ge 0x61) (Le 0x7A))).
(** include/muu/impl/unicode_char16_t.h:82-85 *)
Definition is_ascii_number_16 : stmt :=
  (Return (And (Ge 0x30) (Le 0x39))).
(** include/muu/impl/unicode_char16_t.h:94-97 *)
Definition is_ascii_uppercase_16 : stmt :=
  (Return (And (Ge 0x41) (Le 0x5A))).
(** include/muu/impl/unicode_char16_t.h:106-109 *)
Definition is_ascii_whitespace_16 : stmt :=
  (Return (Or (And (Ge 0x9) (Le 0xD)) (Eq 0x20))).
(** include/muu/impl/unicode_char16_t.h:118-121 *)
Definition is_non_ascii_code_point_16 : stmt :=
  (Return (Or (And (Ge 0x80) (Le 0xD7FF)) (Ge 0xE000))).
(** include/muu/impl/unicode_char16_t.h:130-150 *)
Definition is_non_ascii_hyphen_16 : stmt :=
  (If (Or (Lt 0xAD) (Gt 0xFF65))
    (Return No)
  (If (BlockIn 64 0xAD 0x3FB 0x7FFFFFFFFFFFE75C)
    (Return No)
  (If (Or (Or (Or (Or (Eq 0xAD) (Eq 0x58A)) (Eq 0x1806)) (Eq 0x2E17)) (Eq 0x30FB))
    (Return Yes)
  (If (BlockIs 64 0xAD 0x3FB 0x7)
    (Return (And (Ge 0x2010) (Le 0x2011)))
  (If (BlockIs 64 0xAD 0x3FB 0x3F)
    (Return (Or (Or (Eq 0xFE63) (Eq 0xFF0D)) (Eq 0xFF65)))
  Unreachable))))).
(** include/muu/impl/unicode_char16_t.h:159-446 *)
Definition is_non_ascii_letter_16 : stmt :=
  (If (Or (Lt 0xAA) (Gt 0xFFDC))
    (Return No)
  (If (BlockIn 64 0xAA 0x3FD 0x3FC0000000000200)
    (Return No)
  (If (BlockIn 64 0xAA 0x3FD 0x1FF9FFFFF7E000)
    (Return Yes)
  (If (BlockIs 64 0xAA 0x3FD 0x0)
    (Assume (And (Ge 0xAA) (Le 0x4A6))
    (Return (TableBit 0xAA 0xAA [0xFFFFDFFFFFC10801;0xFFFFFFFFFFFFDFFF;0xFFFFFFFFFFFFFFFF;0xFFFFFFFFFFFFFFFF;0xFFFFFFFFFFFFFFFF;0xFFFFFFFFFFFFFFFF;0xFFFFFFFFFFFFFFFF;0xFFFFFFFFFFFFFFFF;0x7C000FFF0FFFFFF;0x14;0x0;0xFEFFFFF5D02F37C0;0xFFFFFFFFFFFFFFFF;0xFFFFFFFFFFFFEFFF;0xFFFFFFFFFFFFFFFF;0x1FFFFFFF00FFFFFF])))
  (If (BlockIs 64 0xAA 0x3FD 0x1)
    (Assume (And (Ge 0x4A7) (Le 0x8A3))
    (Return (TableBit 0x4A7 0x4A7 [0xFFFFFFFFFFFFFFFF;0xFFFFFFFFFFFFFFFF;0xFE04FFFFFFFFFDFF;0x3FFFFFFFF;0xFFFFFE0000000000;0xFE00000000000F0F;0xFFFFFFFFF;0xFFFFFFFFFFFFFD80;0xC0005FFFFFFFFFFF;0xFFFFFA0001380180;0xFFFFFFC0000001FF;0x7FFFFFFFFFFFFFFF;0xFFFFFFF800000400;0x20087FFFFE08600F;0xFE03FFFFFE000002;0x1E0000FDFFFFFE0F])))
  (If (BlockIs 64 0xAA 0x3FD 0x2)
    (Assume (And (Ge 0x8A4) (Le 0xCA0))
    (Return (TableBit 0x8A4 0x8A4 [0x3FFFFFFFFF;0xFFFFFFFF00000000;0x3FF01000023FFFFF;0xFFFF99FE1FFFE000;0x3B000400023C5FDF;0xFFFF987E01003000;0x5E000000036DFDF;0xFFFFBBFE0001C000;0x30001000023EDFDF;0xFFFF99FE00200000;0x3B000000023EDFDF;0x8D63DC7E80002000;0x1000003FFC71;0xFFFFDDFE00000000;0x32700000023FFFDF;0x1FFFDDFE10000000])))
  (If (BlockIs 64 0xAA 0x3FD 0x3)
    (If (Gt 0x108E)
      (Return No)
    (Assume (Ge 0xCA1)
    (Return (TableBit 0xCA1 0xCA1 [0xB000000011F7FEFF;0xFFFEEFF800030001;0xC038200013FFFFFF;0xFE3FFFF07E000001;0x3F97FDFFFF;0xFFFFFFFF00000000;0x3F8006FFFF;0xFFFFFBEB00000000;0x7800002F9006FFD7;0x80000000;0xFFFFFF7F80000000;0xF8000000FFF;0x0;0xFFFFFFFF80000000;0x1E1F8000400003FF;0x2001FFF0E031]))))
  (If (BlockIs 64 0xAA 0x3FD 0x4)
    (If (Lt 0x10A0)
      (Return No)
    (Assume (Le 0x149A)
    (Return (TableBit 0x10A0 0x10A0 [0xFFFF20BFFFFFFFFF;0xFFFFFFFFF7FFFFFF;0xFFFFFFFFFFFFFFFF;0xFFFFFFFFFFFFFFFF;0xFFFFFFFFFFFFFFFF;0xFFFFFFFFFFFFFFFF;0x3D7F3DFFFFFFFFFF;0xFFFF3DFFFFFFFFFF;0xFF7FFF3D7F3DFFFF;0xFF3DFFFFFFFFFFFF;0x7FFFFFFFFFFFFFF;0xFFFF00000000;0xFFFFFFFFFFFFFFFF;0xFFFFFFFE3F3FFFFF;0xFFFFFFFFFFFFFFFF;0x7FFFFFFFFFFFFFF]))))
  (If (BlockIs 64 0xAA 0x3FD 0x5)
    (Assume (And (Ge 0x149B) (Le 0x1897))
    (Return (TableBit 0x149B 0x149B [0xFFFFFFFFFFFFFFFF;0xFFFFFFFFFFFFFFFF;0xFFFFFFFFFFFFFFFF;0xFFFFFFFFFFFFFFFF;0xFFFFFFFFFFFFFFFF;0xFFFFFFFFFFFFFFFF;0xFFFFFFFFFFFFFFFF;0xFFFFFFDFFFF3FFFF;0xFFFFFFFFFFFFFFE0;0x7FFFE03FC0FFFF;0x7FFFE0007FFFF0;0xFFFFFFE0003BFFE0;0x1000000001FFFFFF;0x2;0xFFFFFFFFFFFFFFE0;0x1FFFF3E03FFFFFFF])))
  (If (BlockIs 64 0xAA 0x3FD 0x6)
    (Assume (And (Ge 0x1898) (Le 0x1C94))
    (Return (TableBit 0x1898 0x1898 [0xFFFFFFFFFF05FFFF;0xFFFFFF003FFFFFFF;0xFF0000000000007F;0xFFFFFF001F3FFFFF;0x3FFFFFF0FFFFF;0x7FFFFF0000000000;0x1FFFFFFFFFFFFF00;0x0;0x8000;0xFFFFE00000000000;0x1FE0000FFFFFFF;0xFFFFF80000000000;0xFFFFFFFC00C001FF;0xFFFFFF0000003FFF;0xE0000000000FFF;0x1F01FF3FFFFFFFFC])))
  (If (BlockIs 64 0xAA 0x3FD 0x7)
    (Assume (And (Ge 0x1C95) (Le 0x2091))
    (Return (TableBit 0x1C95 0x1C95 [0x73FFFFFFFFF;0xFFFFF8237EF00000;0xFFFFFFFFFFFFFFFF;0xFFFFFFFFFFFFFFFF;0x7FFFFFFFFFF;0xFFFFF80000000000;0xFFFFFFFFFFFFFFFF;0xFFFFFFFFFFFFFFFF;0xFFFFFFFFFFFFFFFF;0xFFFFFFFFFFFFFFFF;0xF9F9FFFFFFFFF9F9;0xFFFFF9FFFFFFFD57;0x78FEE2FEFFFFFFFF;0xFEE0FFF87E;0x0;0x1800040010000000])))
  (If (BlockIs 64 0xAA 0x3FD 0x8)
    (If (Gt 0x2184)
      (Return No)
    (Assume (Ge 0x2092)
    (If (BlockIs 64 0x2092 0x40 0x0)
      (Return (Le 0x209C))
    (If (BlockIs 64 0x2092 0x40 0x1)
      (Return (And (Ge 0x2102) (BlockIn 32 0x2102 0x1 0xFF21)))
    (If (BlockIs 64 0x2092 0x40 0x2)
      (Return (And (Le 0x214E) (BlockIn 64 0x2112 0x1 0x10F83CFFEF540F8B)))
    (If (BlockIs 64 0x2092 0x40 0x3)
      (Return (Ge 0x2183))
    Unreachable))))))
  (If (BlockIs 64 0xAA 0x3FD 0xA)
    (Return (Ge 0x2C00))
  (If (BlockIs 64 0xAA 0x3FD 0xB)
    (Assume (And (Ge 0x2C89) (Le 0x3085))
    (Return (TableBit 0x2C89 0x2C89 [0xFFFFFFFFFFFFFFFF;0xFF80063C0FFFFFFF;0xFFFFFF905FFFFFFF;0xFF8000407FFFFFFF;0xBFBFBFBFBF803FFF;0x3FBFBF;0x4000000000;0x0;0x0;0x0;0x0;0x0;0x0;0x3000000000000000;0xFF0C1F0000000000;0x1FFFFFFFFFFFFFFF])))
  (If (BlockIs 64 0xAA 0x3FD 0xC)
    (Assume (And (Ge 0x3086) (Le 0x3482))
    (Return (TableBit 0x3086 0x3086 [0xFFFFFFFFFB81FFFF;0x83DFFFFFFFFFFFFF;0xFFFFFBFFFFFFFFFF;0xFFFFFFFFFFFFFFFF;0x3FFFFFFFC0001FF;0x3FFFC0000000000;0x0;0x0;0x0;0x0;0x0;0x0;0x0;0xFC00000000000000;0xFFFFFFFFFFFFFFFF;0x1FFFFFFFFFFFFFFF])))
  (If (BlockIs 64 0xAA 0x3FD 0x13)
    (Return (Or (Le 0x4DBF) (Ge 0x4E00)))
  (If (BlockIs 64 0xAA 0x3FD 0x29)
    (If (Gt 0xA822)
      (Return No)
    (Assume (Ge 0xA42F)
    (Return (TableBit 0xA42F 0xA42F [0xFFFFFFFFFFFFFFFF;0x3FFFFFFF;0xFFFFFFFE00000000;0xFFFFFFFFFFFE7FFF;0xFFFFFFFFFFFFFFFF;0xFFFFFFFFFFFFFFFF;0xFFFFFFFFFFFFFFFF;0x1801FFFE3FFFFFFF;0xFFFFFFFFFFFE0000;0xFFFE7FFFFFFF0000;0x7FFFFFFFFFFFFF;0xFFF9FF0000000000;0xFFFFFFFFFFFFFFFF;0xFFFFFFFFF3FFFFFF;0x7D60FFFFFFF;0xFFFFFEF77FFF8]))))
  (If (BlockIs 64 0xAA 0x3FD 0x2A)
    (If (Lt 0xA840)
      (Return No)
    (Assume (Le 0xAC28)
    (Return (TableBit 0xA840 0x0 [0xFFFFFFFFFFFFF;0xFFFFFFFFFFFFC;0x68FC000000000000;0xFFFF003FFFFFFC00;0x1FFFFFFF0000007F;0x7FFFFFFFFFFF0;0x7C00FFDF00008000;0x1FFFFFFFFFF;0xC47FFFFF00000FF7;0x3E62FFFFFFFFFFFF;0x1C07FF38000005;0xFFFF7F7F007E7E7E;0xFFFF03FFF7FFFFFF;0xFFFFFFFFFFFFFFFF;0x7FFFFFFFF;0x1FFFFFFFFFF]))))
  (If (BlockIs 64 0xAA 0x3FD 0x35)
    (Return (Or (Or (Le 0xD7A3) (And (Ge 0xD7B0) (Le 0xD7C6))) (And (Ge 0xD7CB) (Le 0xD7FB))))
  (If (BlockIs 64 0xAA 0x3FD 0x3E)
    (If (Lt 0xF900)
      (Return No)
    (Assume (Le 0xFBEC)
    (Return (TableBit 0xF900 0x0 [0xFFFFFFFFFFFFFFFF;0xFFFFFFFFFFFFFFFF;0xFFFFFFFFFFFFFFFF;0xFFFFFFFFFFFFFFFF;0xFFFFFFFFFFFFFFFF;0xFFFF3FFFFFFFFFFF;0xFFFFFFFFFFFFFFFF;0x3FFFFFF;0x5F7FFDFFA0F8007F;0xFFFFFFFFFFFFFFDB;0x3FFFFFFFFFFFF;0x1FFFFFF80000]))))
  (If (BlockIs 64 0xAA 0x3FD 0x3F)
    (Assume (And (Ge 0xFBED) (Le 0xFFDC))
    (Return (TableBit 0xFBED 0xFBED [0xFFFFFFFFFFFFFFFF;0xFFFFFFFFFFFFFFFF;0xFFFFFFFFFFFFFFFF;0xFFFFFFFFFFFFFFFF;0xFFFFFFFFFFFFFFFF;0xFFFFFFF80001FFFF;0xFFFFFFE7FFFFFFFF;0x7FFFFFF;0x7FF8;0x0;0xFFFFFFFFFFFFFEF8;0xFFFFFFFFFFFFFFFF;0xFFF000000000FFFF;0xFE003FFFFFF03FFF;0xFFFFFFFFFFFFFFFF;0xE7E7E7E3FFFF])))
  Unreachable))))))))))))))))))))).
(** include/muu/impl/unicode_char16_t.h:455-614 *)
Definition is_non_ascii_lowercase_16 : stmt :=
  (If (Or (Lt 0xAA) (Gt 0xFF5A))
    (Return No)
  (If (BlockIn 64 0xAA 0x3FB 0x3FFFF9FFFFFFF02C)
    (Return No)
  (If (BlockIs 64 0xAA 0x3FB 0x0)
    (If (Gt 0x4A3)
      (Return No)
    (Assume (Ge 0xAA)
    (Return (TableBit 0xAA 0xAA [0xFFE0000000010801;0xAAAAAAAAAABFDFFF;0xAAAAAAAAD5556AAA;0x4A93890C4A752AAA;0xAAAD55549039944B;0xAAAAAAAAAAAA8A6A;0xFFFFFFEAA164FEAA;0xFFFFFBFFFFFFFFFF;0x7C0000000C07FFF;0x0;0x8000000;0x40000F2280;0xAAAAB8DFFFFFFFFC;0x64BEA;0xAABFFFFFFFFFFFC0;0x2AAAAAA00AAAAAA]))))
  (If (BlockIs 64 0xAA 0x3FB 0x1)
    (If (Gt 0x588)
      (Return No)
    (Assume (Ge 0x4A5)
    (If (BlockIs 64 0x4A5 0x40 0x0)
      (Return (And (Le 0x4E3) (BlockIn 64 0x4A5 0x1 0x555556AAA5555555)))
    (If (BlockIs 64 0x4A5 0x40 0x1)
      (Return (And (Le 0x523) (RemIs 32 0x1 0x2 0x0)))
    (If (BlockIs 64 0x4A5 0x40 0x2)
      (Return (BlockIn 64 0x525 0x1 0xF800000000000555))
    (Return Yes))))))
  (If (BlockIs 64 0xAA 0x3FB 0x4)
    (Return (Or (Or (And (Ge 0x10D0) (Le 0x10FA)) (And (Ge 0x10FC) (Le 0x10FF))) (And (Ge 0x13F8) (Le 0x13FD))))
  (If (BlockIs 64 0xAA 0x3FB 0x6)
    (Return (Ge 0x1C80))
  (If (BlockIs 64 0xAA 0x3FB 0x7)
    (If (Gt 0x207F)
      (Return No)
    (Assume (Ge 0x1C87)
    (Return (TableBit 0x1C87 0x1C87 [0x3;0xFE00000000000000;0xFFFFFFFFFFFFFFFF;0xFFFFFFFFFFFFFFFF;0x1FFFFFFFFFFFFFF;0x5400000000000000;0x5555555555555555;0x5555555555555555;0x55555555557FD555;0xFF55555555555555;0x7E01FE01FE007E01;0xFE7FFE01FE01FE00;0xB881BE01FE01FE01;0x1B801FE019E01;0x0;0x100040000000000]))))
  (If (BlockIs 64 0xAA 0x3FB 0x8)
    (If (Or (Lt 0x2090) (Gt 0x2184))
      (Return No)
    (If (BlockIs 64 0x2090 0x40 0x0)
      (Return (Le 0x209C))
    (If (BlockIs 64 0x2090 0x40 0x1)
      (Return (And (Ge 0x210A) (BlockIn 32 0x210A 0x1 0x31)))
    (If (BlockIs 64 0x2090 0x40 0x2)
      (Return (And (And (Ge 0x2113) (Le 0x214E)) (BlockIn 64 0x2113 0x1 0x878064210000001)))
    (If (BlockIs 64 0x2090 0x40 0x3)
      (Return (Or (And (Ge 0x2170) (Le 0x217F)) (Eq 0x2184)))
    Unreachable)))))
  (If (BlockIs 64 0xAA 0x3FB 0x9)
    (Return (And (Ge 0x24D0) (Le 0x24E9)))
  (If (BlockIs 64 0xAA 0x3FB 0xA)
    (If (Or (Lt 0x2C30) (Gt 0x2C71))
      (Return No)
    (Return (Or (Eq 0x2C71) (And (Le 0x2C6C) (BlockIn 64 0x2C30 0x1 0x1562FFFFFFFFFFFF)))))
  (If (BlockIs 64 0xAA 0x3FB 0xB)
    (If (Gt 0x2D2D)
      (Return No)
    (Assume (Ge 0x2C73)
    (If (BlockIs 64 0x2C73 0x40 0x0)
      (Return (And (Le 0x2CB1) (BlockIn 64 0x2C73 0x1 0x55555555555547FB)))
    (If (BlockIs 64 0x2C73 0x40 0x1)
      (Return (And (Le 0x2CEE) (BlockIn 64 0x2CB3 0x1 0xA03555555555555)))
    (If (BlockIs 64 0x2C73 0x40 0x2)
      (Return (Or (Or (Or (And (Ge 0x2D00) (Le 0x2D25)) (Eq 0x2CF3)) (Eq 0x2D27)) (Eq 0x2D2D)))
    Unreachable)))))
  (If (BlockIs 64 0xAA 0x3FB 0x29)
    (If (Lt 0xA641)
      (Return No)
    (Assume (Le 0xA7D7)
    (Return (TableBit 0xA641 0xA641 [0x155555555555;0x1D555555;0x0;0x5555D55400000000;0x4AFFD55555555555;0x55504155555D2855;0x550285]))))
  (If (BlockIs 64 0xAA 0x3FB 0x2A)
    (If (Or (Lt 0xA7D9) (Gt 0xABBF))
      (Return No)
    (Return (TableBit 0xA7D9 0xA7D9 [0x3AE000001;0x0;0x0;0x0;0x0;0x0;0x0;0x0;0x0;0x0;0x0;0x0;0x0;0xFFFFFFFFFF800000;0xFFFFFFFFFF81FFFB;0x7FFFFFFFFF])))
  (If (BlockIs 64 0xAA 0x3FB 0x3E)
    (Return (And (And (Ge 0xFB00) (Le 0xFB17)) (BlockIn 32 0xFB00 0x1 0xF8007F)))
  (If (BlockIs 64 0xAA 0x3FB 0x3F)
    (Return (Ge 0xFF41))
  Unreachable))))))))))))))).
(** include/muu/impl/unicode_char16_t.h:623-764 *)
Definition is_non_ascii_number_16 : stmt :=
  (If (Or (Lt 0x660) (Gt 0xFF19))
    (Return No)
  (If (BlockIn 64 0x660 0x3E3 0x7FFFF9FFFFFFFB88)
    (Return No)
  (If (BlockIs 64 0x660 0x3E3 0x0)
    (If (Gt 0x9EF)
      (Return No)
    (Assume (Ge 0x660)
    (Return (TableBit 0x660 0x660 [0x3FF;0x0;0x3FF0000;0x0;0x0;0x3FF00000000;0x0;0x0;0x0;0x0;0x0;0x0;0xFFC0;0x0;0xFFC0]))))
  (If (BlockIs 64 0x660 0x3E3 0x1)
    (If (Or (Lt 0xA66) (Gt 0xDEF))
      (Return No)
    (Return (TableBit 0xA66 0xA66 [0x3FF;0x0;0x3FF;0x0;0x3FF;0x0;0x3FF;0x0;0x3FF;0x0;0x3FF;0x0;0x3FF;0x0;0x3FF])))
  (If (BlockIs 64 0x660 0x3E3 0x2)
    (If (Or (Lt 0xE50) (Gt 0x1099))
      (Return No)
    (Return (TableBit 0xE50 0xE50 [0x3FF;0x0;0x3FF;0x3FF0000;0x0;0x0;0x0;0x3FF000000000000;0x0;0x3FF])))
  (If (BlockIs 64 0x660 0x3E3 0x4)
    (If (Or (Lt 0x16EE) (Gt 0x194F))
      (Return No)
    (Return (TableBit 0x16EE 0x16EE [0x7;0x0;0x0;0xFFC000000000000;0xFFC00000000;0x0;0x0;0x0;0x0;0x3FF000000])))
  (If (BlockIs 64 0x660 0x3E3 0x5)
    (If (Or (Lt 0x19D0) (Gt 0x1C59))
      (Return No)
    (Return (TableBit 0x19D0 0x19D0 [0x3FF;0x0;0x3FF000000000000;0x3FF;0x0;0x0;0x3FF;0x3FF00000000;0x0;0x3FF000000000000;0x3FF])))
  (If (BlockIs 64 0x660 0x3E3 0x6)
    (Return (And (And (Ge 0x2160) (Le 0x2188)) (BlockIn 64 0x2160 0x1 0x1E7FFFFFFFF)))
  (If (BlockIs 64 0x660 0x3E3 0xA)
    (Return (And (And (Ge 0x3007) (Le 0x303A)) (BlockIn 64 0x3007 0x1 0xE0007FC000001)))
  (If (BlockIs 64 0x660 0x3E3 0x29)
    (If (Or (Lt 0xA620) (Gt 0xA909))
      (Return No)
    (Return (TableBit 0xA620 0xA620 [0x3FF;0x0;0x0;0xFFC0;0x0;0x0;0x0;0x0;0x0;0x0;0x3FF000000000000;0x3FF00000000])))
  (If (BlockIs 64 0x660 0x3E3 0x2A)
    (If (Or (Lt 0xA9D0) (Gt 0xABF9))
      (Return No)
    (Return (TableBit 0xA9D0 0xA9D0 [0x3FF000003FF;0x0;0x3FF;0x0;0x0;0x0;0x0;0x0;0x3FF00000000])))
  (If (BlockIs 64 0x660 0x3E3 0x3F)
    (Return (Ge 0xFF10))
  Unreachable)))))))))))).
(** include/muu/impl/unicode_char16_t.h:773-936 *)
Definition is_non_ascii_uppercase_16 : stmt :=
  (If (Or (Lt 0xC0) (Gt 0xFF3A))
    (Return No)
  (If (BlockIn 64 0xC0 0x3FA 0x7FFFF9FFFFFFF024)
    (Return No)
  (If (BlockIs 64 0xC0 0x3FA 0x0)
    (If (Gt 0x4B8)
      (Return No)
    (Assume (Ge 0xC0)
    (Return (TableBit 0xC0 0x0 [0x7F7FFFFF;0xAA55555555555555;0x2B555555555554AA;0x11AED2D5B1DBCED6;0x55D255554AAAA490;0x6C05555555555555;0x557A;0x0;0x0;0x0;0x8045000000000000;0xFFBFFFED740;0xE6905555551C8000;0xFFFFFFFFFFFF;0x5555555500000000;0x155555555555401]))))
  (If (BlockIs 64 0xC0 0x3FA 0x1)
    (If (Gt 0x556)
      (Return No)
    (Assume (Ge 0x4BA)
    (If (BlockIs 64 0x4BA 0x40 0x0)
      (Return (And (Le 0x4F8) (BlockIn 64 0x4BA 0x1 0x55555555554AAAD5)))
    (If (BlockIs 64 0x4BA 0x40 0x1)
      (Return (BlockIn 64 0x4FA 0x1 0xFF95555555555555))
    (Return Yes)))))
  (If (BlockIs 64 0xC0 0x3FA 0x3)
    (Return (Ge 0x10A0))
  (If (BlockIs 64 0xC0 0x3FA 0x4)
    (If (Gt 0x13F5)
      (Return No)
    (Assume (Ge 0x10A8)
    (Return (TableBit 0x10A8 0x10A8 [0x20BFFFFFFF;0x0;0x0;0x0;0x0;0x0;0x0;0x0;0x0;0x0;0x0;0xFF00000000000000;0xFFFFFFFFFFFFFFFF;0x3FFF]))))
  (If (BlockIs 64 0xC0 0x3FA 0x6)
    (Return (Ge 0x1C90))
  (If (BlockIs 64 0xC0 0x3FA 0x7)
    (If (Gt 0x1FFB)
      (Return No)
    (Assume (Ge 0x1C96)
    (Return (TableBit 0x1C96 0x1C96 [0x39FFFFFFFFF;0x0;0x0;0x0;0x0;0x5555540000000000;0x5555555555555555;0x5555555555555555;0x5555555555555500;0x3FC015555555555;0xFC03FC03FC00FC;0x3FC02A8;0x3C003C00000000;0x3C007C003C]))))
  (If (BlockIs 64 0xC0 0x3FA 0x8)
    (If (Or (Lt 0x2102) (Gt 0x2183))
      (Return No)
    (If (Eq 0x2183)
      (Return Yes)
    (If (BlockIs 64 0x2102 0x40 0x0)
      (Return (And (Le 0x213F) (BlockIn 64 0x2102 0x1 0x3003CF540F89CE21)))
    (If (BlockIs 64 0x2102 0x40 0x1)
      (Return (And (And (Ge 0x2145) (Le 0x216F)) (BlockIn 64 0x2145 0x1 0x7FFF8000001)))
    Unreachable))))
  (If (BlockIs 64 0xC0 0x3FA 0x9)
    (Return (And (Ge 0x24B6) (Le 0x24CF)))
  (If (BlockIs 64 0xC0 0x3FA 0xA)
    (If (Or (Lt 0x2C00) (Gt 0x2C75))
      (Return No)
    (If (BlockIs 64 0x2C00 0x40 0x0)
      (Return (Le 0x2C2F))
    (If (BlockIs 64 0x2C00 0x40 0x1)
      (Return (And (Ge 0x2C60) (BlockIn 32 0x2C60 0x1 0x25EA9D)))
    Unreachable)))
  (If (BlockIs 64 0xC0 0x3FA 0xB)
    (If (Gt 0x2CF2)
      (Return No)
    (Assume (Ge 0x2C7E)
    (If (BlockIs 64 0x2C7E 0x40 0x0)
      (Return (And (Le 0x2CBC) (BlockIn 64 0x2C7E 0x1 0x5555555555555557)))
    (If (BlockIs 64 0x2C7E 0x40 0x1)
      (Return (BlockIn 64 0x2CBE 0x1 0x10A01555555555))
    Unreachable))))
  (If (BlockIs 64 0xC0 0x3FA 0x29)
    (If (Or (Lt 0xA640) (Gt 0xA7C2))
      (Return No)
    (Return (TableBit 0xA640 0x0 [0x155555555555;0x5555555;0x0;0x5554555400000000;0x6A00555555555555;0x555F7D5555452855;0x5])))
  (If (BlockIs 64 0xC0 0x3FA 0x2A)
    (Return (And (Le 0xA7F5) (BlockIn 64 0xA7C4 0x1 0x200000014102F)))
  (If (BlockIs 64 0xC0 0x3FA 0x3F)
    (Return (Ge 0xFF21))
  Unreachable))))))))))))))).
(** include/muu/impl/unicode_char16_t.h:945-974 *)
Definition is_non_ascii_whitespace_16 : stmt :=
  (If (Or (Lt 0x85) (Gt 0x3000))
    (Return No)
  (If (BlockIn 64 0x85 0xBE 0x7FFFFBFFDFFFFFFE)
    (Return No)
  (If (Or (Eq 0x1680) (Eq 0x3000))
    (Return Yes)
  (If (BlockIs 64 0x85 0xBE 0x0)
    (Return (Or (Eq 0x85) (Eq 0xA0)))
  (If (BlockIs 64 0x85 0xBE 0x2A)
    (If (Or (Lt 0x2000) (Gt 0x205F))
      (Return No)
    (Return (Or (Eq 0x205F) (And (Le 0x202F) (BlockIn 64 0x2000 0x1 0x8300000007FF)))))
  Unreachable))))).
(** include/muu/impl/unicode_char16_t.h:983-986 *)
Definition is_not_code_point_16 : stmt :=
  (Call is_ascii_code_point_16
    (Return No)
  (Call is_non_ascii_code_point_16
    (Return No)
  (Return Yes))).
(** include/muu/impl/unicode_char16_t.h:995-998 *)
Definition is_not_hyphen_16 : stmt :=
  (Call is_ascii_hyphen_16
    (Return No)
  (Call is_non_ascii_hyphen_16
    (Return No)
  (Return Yes))).
(** include/muu/impl/unicode_char16_t.h:1007-1010 *)
Definition is_not_letter_16 : stmt :=
  (Call is_ascii_letter_16
    (Return No)
  (Call is_non_ascii_letter_16
    (Return No)
  (Return Yes))).
(** include/muu/impl/unicode_char16_t.h:1019-1022 *)
Definition is_not_lowercase_16 : stmt :=
  (Call is_ascii_lowercase_16
    (Return No)
  (Call is_non_ascii_lowercase_16
    (Return No)
  (Return Yes))).
(** include/muu/impl/unicode_char16_t.h:1031-1034 *)
Definition is_not_number_16 : stmt :=
  (Call is_ascii_number_16
    (Return No)
  (Call is_non_ascii_number_16
    (Return No)
  (Return Yes))).
(** include/muu/impl/unicode_char16_t.h:1043-1046 *)
Definition is_not_uppercase_16 : stmt :=
  (Call is_ascii_uppercase_16
    (Return No)
  (Call is_non_ascii_uppercase_16
    (Return No)
  (Return Yes))).
(** include/muu/impl/unicode_char16_t.h:1055-1058 *)
Definition is_not_whitespace_16 : stmt :=
  (Call is_ascii_whitespace_16
    (Return No)
  (Call is_non_ascii_whitespace_16
    (Return No)
  (Return Yes))).
(** include/muu/impl/unicode_char16_t.h:1067-1070 *)
Definition is_code_point_16 : stmt :=
  (Return (Or (Le 0xD7FF) (Ge 0xE000))).
(** include/muu/impl/unicode_char16_t.h:1079-1082 *)
Definition is_code_point_boundary_16 : stmt :=
  (Return (Or (Le 0xDBFF) (Ge 0xE000))).
(** include/muu/impl/unicode_char16_t.h:1091-1252 *)
Definition is_combining_mark_16 : stmt :=
  (If (Or (Lt 0x300) (Gt 0xFE2F))
    (Return No)
  (If (BlockIn 64 0x300 0x3ED 0x7FFFF1FFFFFFF300)
    (Return No)
  (If (BlockIs 64 0x300 0x3ED 0x0)
    (Assume (And (Ge 0x300) (Le 0x6EC))
    (Return (TableBit 0x300 0x0 [0xFFFFFFFFFFFFFFFF;0xFFFFFFFFFFFF;0x0;0x0;0x0;0x0;0xF8;0x0;0x0;0x0;0xBFFFFFFFFFFE0000;0xB6;0x7FF0000;0x10000FFFFF800;0x0;0x1D9F9FC00000])))
  (If (BlockIs 64 0x300 0x3ED 0x1)
    (If (Gt 0xACD)
      (Return No)
    (Assume (Ge 0x6ED)
    (Return (TableBit 0x6ED 0x6ED [0x1000000001;0x3FFFFFF8;0xFE00000000000000;0xC00000000000000F;0xF77FDE000001007F;0x700000000001;0x7F80000000000;0xFFDFFFFFE0000000;0x7FFFFF;0x6007F7FFFEE000;0x700000;0x600401CCFE8000;0x720000;0x11CC3E8000;0x700118;0x1DDFE8000]))))
  (If (BlockIs 64 0x300 0x3ED 0x2)
    (If (Or (Lt 0xAE2) (Gt 0xEBC))
      (Return No)
    (Return (TableBit 0xAE2 0xAE2 [0x3BF000003;0x380E67F4000000;0x100000003;0x200F71F0000000;0x7C0000000;0x180F77F4000000;0x380000003;0x180F77F4000000;0x3C0020003;0x200F77F6000000;0x380000003;0x3FD7E10000000000;0x30000;0x1FE001FC8000;0x0;0x7FC8000])))
  (If (BlockIs 64 0x300 0x3ED 0x3)
    (If (Or (Lt 0xEC8) (Gt 0x109D))
      (Return No)
    (Return (TableBit 0xEC8 0xEC8 [0x7F;0xC2A00000030000;0xDFFFFE0000000000;0x401FFFFFFFFEFFE0;0x0;0x7FFFF800000000;0xFC001E3F9DC3C000;0x3C00BF])))
  (If (BlockIs 64 0x300 0x3ED 0x4)
    (Return (And (Ge 0x135D) (Le 0x135F)))
  (If (BlockIs 64 0x300 0x3ED 0x5)
    (If (Or (Lt 0x1712) (Gt 0x1A7F))
      (Return No)
    (Return (TableBit 0x1712 0x1712 [0x70000000F;0x300000003;0xFFFFFFFC00000000;0x2E00000000000803;0x0;0x18000000000000;0x800000;0x0;0x3FFC3FFC000;0x0;0x0;0x0;0x3E0;0x27FFFFFFDFF8])))
  (If (BlockIs 64 0x300 0x3ED 0x6)
    (If (Or (Lt 0x1AB0) (Gt 0x1DFF))
      (Return No)
    (Return (TableBit 0x1AB0 0x1AB0 [0x7FFFBFFF;0x1F0000;0xF8000000001FFFF0;0x3FFE00000007000F;0xFFC0000000000000;0xFFF000000000000F;0xFF;0x0;0x21FFFFF700000000;0x390;0x0;0x0;0xFFFFFFFFFFFF0000;0xFFFF])))
  (If (BlockIs 64 0x300 0x3ED 0x7)
    (Return (And (And (Ge 0x20D0) (Le 0x20F0)) (BlockIn 64 0x20D0 0x1 0x1FFE21FFF)))
  (If (BlockIs 64 0x300 0x3ED 0xA)
    (Return (Or (Or (And (Ge 0x2CEF) (Le 0x2CF1)) (And (Ge 0x2DE0) (Le 0x2DFF))) (Eq 0x2D7F)))
  (If (BlockIs 64 0x300 0x3ED 0xB)
    (Return (Or (And (Ge 0x302A) (Le 0x302F)) (And (Ge 0x3099) (Le 0x309A))))
  (If (BlockIs 64 0x300 0x3ED 0x29)
    (If (Or (Lt 0xA66F) (Gt 0xA6F1))
      (Return No)
    (If (BlockIs 64 0xA66F 0x40 0x0)
      (Return (And (Le 0xA69F) (BlockIn 64 0xA66F 0x1 0x1800000007FE1)))
    (If (BlockIs 64 0xA66F 0x40 0x2)
      (Return (Not (Eq 0xA6EF)))
    (Return No))))
  (If (BlockIs 64 0x300 0x3ED 0x2A)
    (If (Or (Lt 0xA802) (Gt 0xAAF6))
      (Return No)
    (Return (TableBit 0xA802 0xA802 [0x43E00000211;0xC000000000000000;0xFFFC000000000000;0x2000FFFFC000000F;0xFF000000000;0xC00000000003FFE0;0x7FFE000000000003;0x800000000;0x1FFF8000000000;0xE00000000000C02;0xB067400000000000;0x183E0000000000])))
  (If (BlockIs 64 0x300 0x3ED 0x2B)
    (Return (And (And (Ge 0xABE3) (Le 0xABED)) (BlockIn 32 0xABE3 0x1 0x6FF)))
  (If (BlockIs 64 0x300 0x3ED 0x3F)
    (Return (Or (Or (And (Ge 0xFE00) (Le 0xFE0F)) (Ge 0xFE20)) (Eq 0xFB1E)))
  Unreachable)))))))))))))))).
(** include/muu/impl/unicode_char16_t.h:1261-1264 *)
Definition is_decimal_digit_16 : stmt :=
  (Return (And (Ge 0x30) (Le 0x39))).
(** include/muu/impl/unicode_char16_t.h:1273-1276 *)
Definition is_hexadecimal_digit_16 : stmt :=
  (Return (And (And (Ge 0x30) (Le 0x66)) (BlockIn 64 0x30 0x1 0x7E0000007E03FF))).
(** include/muu/impl/unicode_char16_t.h:1285-1288 *)
Definition is_hyphen_16 : stmt :=
  (Call is_ascii_hyphen_16
    (Return Yes)
  (Call is_non_ascii_hyphen_16
    (Return Yes)
  (Return No))).
(** include/muu/impl/unicode_char16_t.h:1297-1300 *)
Definition is_letter_16 : stmt :=
  (Call is_ascii_letter_16
    (Return Yes)
  (Call is_non_ascii_letter_16
    (Return Yes)
  (Return No))).
(** include/muu/impl/unicode_char16_t.h:1309-1312 *)
Definition is_lowercase_16 : stmt :=
  (Call is_ascii_lowercase_16
    (Return Yes)
  (Call is_non_ascii_lowercase_16
    (Return Yes)
  (Return No))).
(** include/muu/impl/unicode_char16_t.h:1321-1324 *)
Definition is_number_16 : stmt :=
  (Call is_ascii_number_16
    (Return Yes)
  (Call is_non_ascii_number_16
    (Return Yes)
  (Return No))).
(** include/muu/impl/unicode_char16_t.h:1333-1336 *)
Definition is_octal_digit_16 : stmt :=
  (Return (And (Ge 0x30) (Le 0x37))).
(** include/muu/impl/unicode_char16_t.h:1345-1348 *)
Definition is_uppercase_16 : stmt :=
  (Call is_ascii_uppercase_16
    (Return Yes)
  (Call is_non_ascii_uppercase_16
    (Return Yes)
  (Return No))).
(** include/muu/impl/unicode_char16_t.h:1357-1360 *)
Definition is_whitespace_16 : stmt :=
  (Call is_ascii_whitespace_16
    (Return Yes)
  (Call is_non_ascii_whitespace_16
    (Return Yes)
  (Return No))).

(** include/muu/impl/unicode_char8_t.h:34-37 *)
Definition is_ascii_code_point_8 : stmt :=
  (Return (Le 0x7F)).
(** include/muu/impl/unicode_char8_t.h:46-49 *)
Definition is_ascii_hyphen_8 : stmt :=
  (Return (Eq 0x2D)).
(** include/muu/impl/unicode_char8_t.h:58-61 *)
Definition is_ascii_letter_8 : stmt :=
  (Return (Or (And (Ge 0x41) (Le 0x5A)) (And (Ge 0x61) (Le 0x7A)))).
(** include/muu/impl/unicode_char8_t.h:70-73 *)
Definition is_ascii_lowercase_8 : stmt :=
  (Return (And (Ge 0x61) (Le 0x7A))).
(** include/muu/impl/unicode_char8_t.h:82-85 *)
Definition is_ascii_number_8 : stmt :=
  (Return (And (Ge 0x30) (Le 0x39))).
(** include/muu/impl/unicode_char8_t.h:94-97 *)
Definition is_ascii_uppercase_8 : stmt :=
  (Return (And (Ge 0x41) (Le 0x5A))).
(** include/muu/impl/unicode_char8_t.h:106-109 *)
Definition is_ascii_whitespace_8 : stmt :=
  (Return (Or (And (Ge 0x9) (Le 0xD)) (Eq 0x20))).
(** include/muu/impl/unicode_char8_t.h:118-122 *)
Definition is_non_ascii_code_point_8 : stmt :=
  (Return No).
(** include/muu/impl/unicode_char8_t.h:131-135 *)
Definition is_non_ascii_hyphen_8 : stmt :=
  (Return No).
(** include/muu/impl/unicode_char8_t.h:144-148 *)
Definition is_non_ascii_letter_8 : stmt :=
  (Return No).
(** include/muu/impl/unicode_char8_t.h:157-161 *)
Definition is_non_ascii_lowercase_8 : stmt :=
  (Return No).
(** include/muu/impl/unicode_char8_t.h:170-174 *)
Definition is_non_ascii_number_8 : stmt :=
  (Return No).
(** include/muu/impl/unicode_char8_t.h:183-187 *)
Definition is_non_ascii_uppercase_8 : stmt :=
  (Return No).
(** include/muu/impl/unicode_char8_t.h:196-200 *)
Definition is_non_ascii_whitespace_8 : stmt :=
  (Return No).
(** include/muu/impl/unicode_char8_t.h:209-212 *)
Definition is_not_code_point_8 : stmt :=
  (Call is_ascii_code_point_8
    (Return No)
  (Call is_non_ascii_code_point_8
    (Return No)
  (Return Yes))).
(** include/muu/impl/unicode_char8_t.h:221-224 *)
Definition is_not_hyphen_8 : stmt :=
  (Call is_ascii_hyphen_8
    (Return No)
  (Call is_non_ascii_hyphen_8
    (Return No)
  (Return Yes))).
(** include/muu/impl/unicode_char8_t.h:233-236 *)
Definition is_not_letter_8 : stmt :=
  (Call is_ascii_letter_8
    (Return No)
  (Call is_non_ascii_letter_8
    (Return No)
  (Return Yes))).
(** include/muu/impl/unicode_char8_t.h:245-248 *)
Definition is_not_lowercase_8 : stmt :=
  (Call is_ascii_lowercase_8
    (Return No)
  (Call is_non_ascii_lowercase_8
    (Return No)
  (Return Yes))).
(** include/muu/impl/unicode_char8_t.h:257-260 *)
Definition is_not_number_8 : stmt :=
  (Call is_ascii_number_8
    (Return No)
  (Call is_non_ascii_number_8
    (Return No)
  (Return Yes))).
(** include/muu/impl/unicode_char8_t.h:269-272 *)
Definition is_not_uppercase_8 : stmt :=
  (Call is_ascii_uppercase_8
    (Return No)
  (Call is_non_ascii_uppercase_8
    (Return No)
  (Return Yes))).
(** include/muu/impl/unicode_char8_t.h:281-284 *)
Definition is_not_whitespace_8 : stmt :=
  (Call is_ascii_whitespace_8
    (Return No)
  (Call is_non_ascii_whitespace_8
    (Return No)
  (Return Yes))).
(** include/muu/impl/unicode_char8_t.h:293-296 *)
Definition is_code_point_8 : stmt :=
  (Return (Le 0x7F)).
(** include/muu/impl/unicode_char8_t.h:305-308 *)
Definition is_code_point_boundary_8 : stmt :=
  (Return (Not (MaskIs 0xC0 0x80))).
(** include/muu/impl/unicode_char8_t.h:317-321 *)
Definition is_combining_mark_8 : stmt :=
  (Return No).
(** include/muu/impl/unicode_char8_t.h:330-333 *)
Definition is_decimal_digit_8 : stmt :=
  (Return (And (Ge 0x30) (Le 0x39))).
(** include/muu/impl/unicode_char8_t.h:342-345 *)
Definition is_hexadecimal_digit_8 : stmt :=
  (Return (And (And (Ge 0x30) (Le 0x66)) (BlockIn 64 0x30 0x1 0x7E0000007E03FF))).
(** include/muu/impl/unicode_char8_t.h:354-357 *)
Definition is_hyphen_8 : stmt :=
  (Call is_ascii_hyphen_8
    (Return Yes)
  (Call is_non_ascii_hyphen_8
    (Return Yes)
  (Return No))).
(** include/muu/impl/unicode_char8_t.h:366-369 *)
Definition is_letter_8 : stmt :=
  (Call is_ascii_letter_8
    (Return Yes)
  (Call is_non_ascii_letter_8
    (Return Yes)
  (Return No))).
(** include/muu/impl/unicode_char8_t.h:378-381 *)
Definition is_lowercase_8 : stmt :=
  (Call is_ascii_lowercase_8
    (Return Yes)
  (Call is_non_ascii_lowercase_8
    (Return Yes)
  (Return No))).
(** include/muu/impl/unicode_char8_t.h:390-393 *)
Definition is_number_8 : stmt :=
  (Call is_ascii_number_8
    (Return Yes)
  (Call is_non_ascii_number_8
    (Return Yes)
  (Return No))).
(** include/muu/impl/unicode_char8_t.h:402-405 *)
Definition is_octal_digit_8 : stmt :=
  (Return (And (Ge 0x30) (Le 0x37))).
(** include/muu/impl/unicode_char8_t.h:414-417 *)
Definition is_uppercase_8 : stmt :=
  (Call is_ascii_uppercase_8
    (Return Yes)
  (Call is_non_ascii_uppercase_8
    (Return Yes)
  (Return No))).
(** include/muu/impl/unicode_char8_t.h:426-429 *)
Definition is_whitespace_8 : stmt :=
  (Call is_ascii_whitespace_8
    (Return Yes)
  (Call is_non_ascii_whitespace_8
    (Return Yes)
  (Return No))).
