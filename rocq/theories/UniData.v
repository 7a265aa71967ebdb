(** The tables of pire/stub/unidata_cpp.h, generated from its text: unicode_types (lines
    41-77), the pages up_ (lines 90-2071) and unicode_pages (lines 2073-2202).  An array of 2^n
    elements is a binary tree of depth n, the highest bit of the index chosen first;
    unicode_types is padded with zeros to 512. *)
From Coq Require Import NArith.
Local Open Scope N_scope.

Inductive trie (A : Type) : Type := Lf (a : A) | Nd (l r : trie A).
Arguments Lf {A} a.
Arguments Nd {A} l r.

Definition unicode_types : trie N :=
  (Nd (Nd (Nd (Nd (Nd (Nd (Nd (Nd (Nd (Lf 0x18) (Lf 0x90019)) (Nd (Lf 0x80019) (Lf 0x8001A))) (Nd (Nd (Lf
  0x9001A) (Lf 0xA0014)) (Nd (Lf 0xB002C) (Lf 0xB002B)))) (Nd (Nd (Nd (Lf 0x5002A) (Lf 0x50031)) (Nd (Lf
  0xB002A) (Lf 0xB0038))) (Nd (Nd (Lf 0xB0023) (Lf 0xB0025)) (Nd (Lf 0x5002F) (Lf 0x7002C))))) (Nd (Nd (Nd (Nd
  (Lf 0x50022) (Lf 0x4002A)) (Nd (Lf 0x30210) (Lf 0xFC030610))) (Nd (Nd (Lf 0xB002F) (Lf 0x8010241)) (Nd (Lf
  0x8010041) (Lf 0xB0032)))) (Nd (Nd (Nd (Lf 0xB0029) (Lf 0x8010282)) (Nd (Lf 0x8010082) (Lf 0x80018))) (Nd
  (Nd (Lf 0x74814) (Lf 0xB0033)) (Nd (Lf 0xB4032) (Lf 0x14002)))))) (Nd (Nd (Nd (Nd (Nd (Lf 0xB0027) (Lf
  0xB001B)) (Nd (Lf 0x50033) (Lf 0xFC034413))) (Nd (Nd (Lf 0x46414082) (Lf 0xB002D)) (Nd (Lf 0xFA034413) (Lf
  0xB0028)))) (Nd (Nd (Nd (Lf 0xB4013) (Lf 0x8018041)) (Nd (Lf 0x10002) (Lf 0x8018082))) (Nd (Nd (Lf
  0xE1C18082) (Lf 0x418041)) (Nd (Lf 0x418082) (Lf 0x410041))))) (Nd (Nd (Nd (Nd (Lf 0x410082) (Lf
  0xCE418041)) (Nd (Lf 0x3A010082) (Lf 0x414041))) (Nd (Nd (Lf 0x414082) (Lf 0xE1C18041)) (Nd (Lf 0x4B014082)
  (Lf 0x34810041)))) (Nd (Nd (Nd (Lf 0x33810041) (Lf 0x33410041)) (Nd (Lf 0x13C10041) (Lf 0x32810041))) (Nd
  (Nd (Lf 0x32C10041) (Lf 0x33C10041)) (Nd (Lf 0xE7C10082) (Lf 0x34C10041))))))) (Nd (Nd (Nd (Nd (Nd (Nd (Lf
  0x34410041) (Lf 0x35410041)) (Nd (Lf 0xDF810082) (Lf 0x35810041))) (Nd (Nd (Lf 0x36810041) (Lf 0x36410041))
  (Nd (Lf 0x36C10041) (Lf 0x10006)))) (Nd (Nd (Nd (Lf 0xF2010082) (Lf 0x814141)) (Nd (Lf 0x4140C3) (Lf
  0x814082))) (Nd (Nd (Lf 0x13C10082) (Lf 0x18002)) (Nd (Lf 0xE7C10041) (Lf 0xF2010041))))) (Nd (Nd (Nd (Nd
  (Lf 0xDF810041) (Lf 0)) (Nd (Lf 0x34810082) (Lf 0x33810082))) (Nd (Nd (Lf 0x33410082) (Lf 0x32810082)) (Nd
  (Lf 0x32C10082) (Lf 0x33C10082)))) (Nd (Nd (Nd (Lf 0x34410082) (Lf 0x34C10082)) (Nd (Lf 0x35410082) (Lf
  0x35810082))) (Nd (Nd (Lf 0x36810082) (Lf 0x36410082)) (Nd (Lf 0x36C10082) (Lf 0x14005)))))) (Nd (Nd (Nd (Nd
  (Nd (Lf 0xB0005) (Lf 0x10005)) (Nd (Lf 0xB0004) (Lf 0x10004))) (Nd (Nd (Lf 0x200D) (Lf 0xA00D)) (Nd (Lf
  0xEB00208D) (Lf 0xD)))) (Nd (Nd (Nd (Lf 0xB8032) (Lf 0x14004)) (Nd (Lf 0xB802C) (Lf 0x9818041))) (Nd (Nd (Lf
  0x9418041) (Lf 0x10018041)) (Nd (Lf 0xFC18041) (Lf 0x9818082))))) (Nd (Nd (Nd (Nd (Lf 0x9418082) (Lf
  0x7C10082)) (Nd (Lf 0x10018082) (Lf 0xFC18082))) (Nd (Nd (Lf 0xF814082) (Lf 0xE414082)) (Nd (Lf 0x14001) (Lf
  0x18001)))) (Nd (Nd (Nd (Lf 0xBC14082) (Lf 0xD814082)) (Nd (Lf 0x15814082) (Lf 0x14014082))) (Nd (Nd (Lf
  0xFE414082) (Lf 0xF1014041)) (Nd (Lf 0x18014082) (Lf 0xFE414041)))))))) (Nd (Nd (Nd (Nd (Nd (Nd (Nd (Lf
  0x14018041) (Lf 0x14010041)) (Nd (Lf 0x14018082) (Lf 0x14010082))) (Nd (Nd (Lf 0x10033) (Lf 0xE)) (Nd (Lf
  0x10001) (Lf 0xC010041)))) (Nd (Nd (Nd (Lf 0x1002A) (Lf 0xC010082)) (Nd (Lf 0x1002C) (Lf 0xB0022))) (Nd (Nd
  (Lf 0x2002A) (Lf 0x20002)) (Nd (Lf 0x1B) (Lf 0x2A))))) (Nd (Nd (Nd (Nd (Lf 0x2C) (Lf 0x2)) (Nd (Lf 0x8002)
  (Lf 0x4))) (Nd (Nd (Lf 0x60010) (Lf 0x60410)) (Nd (Lf 0x6002A) (Lf 0x4002)))) (Nd (Nd (Nd (Lf 0x5) (Lf
  0x30010)) (Nd (Lf 0xFC030410) (Lf 0x33))) (Nd (Nd (Lf 0x6) (Lf 0x1000F)) (Nd (Lf 0x18006) (Lf 0x10010))))))
  (Nd (Nd (Nd (Nd (Nd (Lf 0xFE810410) (Lf 0x1800F)) (Nd (Lf 0x10013) (Lf 0x800D))) (Nd (Nd (Lf 0x1000D) (Lf
  0x14006)) (Nd (Lf 0xFC010410) (Lf 0x1402A)))) (Nd (Nd (Nd (Lf 0x10410) (Lf 0x400D)) (Nd (Lf 0x1000A) (Lf
  0x1000B))) (Nd (Nd (Lf 0x1000C) (Lf 0xFE010410)) (Nd (Lf 0x10011) (Lf 0x1001B))))) (Nd (Nd (Nd (Nd (Lf
  0xB0013) (Lf 0xF)) (Nd (Lf 0xEC18082) (Lf 0xFE018082))) (Nd (Nd (Lf 0xFE018041) (Lf 0xED818082)) (Nd (Lf
  0xEA818082) (Lf 0xE7018082)))) (Nd (Nd (Nd (Lf 0xE0018082) (Lf 0xE4018082)) (Nd (Lf 0xE0818082) (Lf
  0xFE018043))) (Nd (Nd (Lf 0xFDC18082) (Lf 0xED818041)) (Nd (Lf 0xFDC18043) (Lf 0xEA818041))))))) (Nd (Nd (Nd
  (Nd (Nd (Nd (Lf 0xE7018041) (Lf 0xFE418082)) (Nd (Lf 0xE4018041) (Lf 0xFE418041))) (Nd (Nd (Lf 0xE0018041)
  (Lf 0xE0818041)) (Nd (Lf 0xA8014) (Lf 0xA4014)))) (Nd (Nd (Nd (Lf 0x15) (Lf 0x1C)) (Nd (Lf 0x1001D) (Lf
  0x2001D))) (Nd (Nd (Lf 0xB4822) (Lf 0xB0021)) (Nd (Lf 0xB402A) (Lf 0xB0036))))) (Nd (Nd (Nd (Nd (Lf 0xB0037)
  (Lf 0xB0034)) (Nd (Lf 0xB0024) (Lf 0xB402C))) (Nd (Nd (Lf 0xA0016) (Lf 0x80017)) (Nd (Lf 0x1D) (Lf
  0xA4814)))) (Nd (Nd (Nd (Lf 0x50038) (Lf 0x5402B)) (Nd (Lf 0xB402B) (Lf 0x34013))) (Nd (Nd (Lf 0x5402F) (Lf
  0x54030)) (Nd (Lf 0xB402F) (Lf 0xB4023)))))) (Nd (Nd (Nd (Nd (Nd (Lf 0xB4025) (Lf 0x34413)) (Nd (Lf 0x54031)
  (Lf 0xB4033))) (Nd (Nd (Lf 0x4014051) (Lf 0x4014091)) (Nd (Lf 0xB802F) (Lf 0xB8033)))) (Nd (Nd (Nd (Lf
  0x50030) (Lf 0xB8023)) (Nd (Lf 0xB8025) (Lf 0x434413))) (Nd (Nd (Lf 0xFB434413) (Lf 0xFE434413)) (Nd (Lf
  0x14033) (Lf 0x6814073))))) (Nd (Nd (Nd (Nd (Lf 0x68140B3) (Lf 0xFB0B0413)) (Nd (Lf 0xB0026) (Lf
  0xFACB0413))) (Nd (Nd (Lf 0x4B0413) (Lf 0xFDCB0413)) (Nd (Lf 0x10007) (Lf 0x10012)))) (Nd (Nd (Nd (Lf
  0x14012) (Lf 0x10009)) (Nd (Lf 0x18009) (Lf 0x18004))) (Nd (Nd (Lf 0x14009) (Lf 0x10008)) (Nd (Lf 0x18008)
  (Lf 0x14008))))))))) (Nd (Nd (Nd (Nd (Nd (Nd (Nd (Nd (Lf 0x14013) (Lf 0x10020)) (Nd (Lf 0x11020) (Lf
  0x1001F))) (Nd (Nd (Lf 0x11000) (Lf 0x18007)) (Nd (Lf 0x28002) (Lf 0x24002)))) (Nd (Nd (Nd (Lf 0x4006) (Lf
  0x4031)) (Nd (Lf 0xB4021) (Lf 0xB4029))) (Nd (Nd (Lf 0xB4024) (Lf 0xB4026)) (Nd (Lf 0x7402C) (Lf
  0x5402A))))) (Nd (Nd (Nd (Nd (Lf 0x54022) (Lf 0x81E)) (Nd (Lf 0xB4038) (Lf 0x4402A))) (Nd (Nd (Lf 0x34210)
  (Lf 0xFC034610)) (Nd (Lf 0x8014241) (Lf 0x8014041)))) (Nd (Nd (Nd (Lf 0x8014282) (Lf 0x8014082)) (Nd (Lf 0)
  (Lf 0))) (Nd (Nd (Lf 0) (Lf 0)) (Nd (Lf 0) (Lf 0)))))) (Nd (Nd (Nd (Nd (Nd (Lf 0) (Lf 0)) (Nd (Lf 0) (Lf
  0))) (Nd (Nd (Lf 0) (Lf 0)) (Nd (Lf 0) (Lf 0)))) (Nd (Nd (Nd (Lf 0) (Lf 0)) (Nd (Lf 0) (Lf 0))) (Nd (Nd (Lf
  0) (Lf 0)) (Nd (Lf 0) (Lf 0))))) (Nd (Nd (Nd (Nd (Lf 0) (Lf 0)) (Nd (Lf 0) (Lf 0))) (Nd (Nd (Lf 0) (Lf 0))
  (Nd (Lf 0) (Lf 0)))) (Nd (Nd (Nd (Lf 0) (Lf 0)) (Nd (Lf 0) (Lf 0))) (Nd (Nd (Lf 0) (Lf 0)) (Nd (Lf 0) (Lf
  0))))))) (Nd (Nd (Nd (Nd (Nd (Nd (Lf 0) (Lf 0)) (Nd (Lf 0) (Lf 0))) (Nd (Nd (Lf 0) (Lf 0)) (Nd (Lf 0) (Lf
  0)))) (Nd (Nd (Nd (Lf 0) (Lf 0)) (Nd (Lf 0) (Lf 0))) (Nd (Nd (Lf 0) (Lf 0)) (Nd (Lf 0) (Lf 0))))) (Nd (Nd
  (Nd (Nd (Lf 0) (Lf 0)) (Nd (Lf 0) (Lf 0))) (Nd (Nd (Lf 0) (Lf 0)) (Nd (Lf 0) (Lf 0)))) (Nd (Nd (Nd (Lf 0)
  (Lf 0)) (Nd (Lf 0) (Lf 0))) (Nd (Nd (Lf 0) (Lf 0)) (Nd (Lf 0) (Lf 0)))))) (Nd (Nd (Nd (Nd (Nd (Lf 0) (Lf 0))
  (Nd (Lf 0) (Lf 0))) (Nd (Nd (Lf 0) (Lf 0)) (Nd (Lf 0) (Lf 0)))) (Nd (Nd (Nd (Lf 0) (Lf 0)) (Nd (Lf 0) (Lf
  0))) (Nd (Nd (Lf 0) (Lf 0)) (Nd (Lf 0) (Lf 0))))) (Nd (Nd (Nd (Nd (Lf 0) (Lf 0)) (Nd (Lf 0) (Lf 0))) (Nd (Nd
  (Lf 0) (Lf 0)) (Nd (Lf 0) (Lf 0)))) (Nd (Nd (Nd (Lf 0) (Lf 0)) (Nd (Lf 0) (Lf 0))) (Nd (Nd (Lf 0) (Lf 0))
  (Nd (Lf 0) (Lf 0)))))))) (Nd (Nd (Nd (Nd (Nd (Nd (Nd (Lf 0) (Lf 0)) (Nd (Lf 0) (Lf 0))) (Nd (Nd (Lf 0) (Lf
  0)) (Nd (Lf 0) (Lf 0)))) (Nd (Nd (Nd (Lf 0) (Lf 0)) (Nd (Lf 0) (Lf 0))) (Nd (Nd (Lf 0) (Lf 0)) (Nd (Lf 0)
  (Lf 0))))) (Nd (Nd (Nd (Nd (Lf 0) (Lf 0)) (Nd (Lf 0) (Lf 0))) (Nd (Nd (Lf 0) (Lf 0)) (Nd (Lf 0) (Lf 0))))
  (Nd (Nd (Nd (Lf 0) (Lf 0)) (Nd (Lf 0) (Lf 0))) (Nd (Nd (Lf 0) (Lf 0)) (Nd (Lf 0) (Lf 0)))))) (Nd (Nd (Nd (Nd
  (Nd (Lf 0) (Lf 0)) (Nd (Lf 0) (Lf 0))) (Nd (Nd (Lf 0) (Lf 0)) (Nd (Lf 0) (Lf 0)))) (Nd (Nd (Nd (Lf 0) (Lf
  0)) (Nd (Lf 0) (Lf 0))) (Nd (Nd (Lf 0) (Lf 0)) (Nd (Lf 0) (Lf 0))))) (Nd (Nd (Nd (Nd (Lf 0) (Lf 0)) (Nd (Lf
  0) (Lf 0))) (Nd (Nd (Lf 0) (Lf 0)) (Nd (Lf 0) (Lf 0)))) (Nd (Nd (Nd (Lf 0) (Lf 0)) (Nd (Lf 0) (Lf 0))) (Nd
  (Nd (Lf 0) (Lf 0)) (Nd (Lf 0) (Lf 0))))))) (Nd (Nd (Nd (Nd (Nd (Nd (Lf 0) (Lf 0)) (Nd (Lf 0) (Lf 0))) (Nd
  (Nd (Lf 0) (Lf 0)) (Nd (Lf 0) (Lf 0)))) (Nd (Nd (Nd (Lf 0) (Lf 0)) (Nd (Lf 0) (Lf 0))) (Nd (Nd (Lf 0) (Lf
  0)) (Nd (Lf 0) (Lf 0))))) (Nd (Nd (Nd (Nd (Lf 0) (Lf 0)) (Nd (Lf 0) (Lf 0))) (Nd (Nd (Lf 0) (Lf 0)) (Nd (Lf
  0) (Lf 0)))) (Nd (Nd (Nd (Lf 0) (Lf 0)) (Nd (Lf 0) (Lf 0))) (Nd (Nd (Lf 0) (Lf 0)) (Nd (Lf 0) (Lf 0))))))
  (Nd (Nd (Nd (Nd (Nd (Lf 0) (Lf 0)) (Nd (Lf 0) (Lf 0))) (Nd (Nd (Lf 0) (Lf 0)) (Nd (Lf 0) (Lf 0)))) (Nd (Nd
  (Nd (Lf 0) (Lf 0)) (Nd (Lf 0) (Lf 0))) (Nd (Nd (Lf 0) (Lf 0)) (Nd (Lf 0) (Lf 0))))) (Nd (Nd (Nd (Nd (Lf 0)
  (Lf 0)) (Nd (Lf 0) (Lf 0))) (Nd (Nd (Lf 0) (Lf 0)) (Nd (Lf 0) (Lf 0)))) (Nd (Nd (Nd (Lf 0) (Lf 0)) (Nd (Lf
  0) (Lf 0))) (Nd (Nd (Lf 0) (Lf 0)) (Nd (Lf 0) (Lf 0)))))))))).
Definition up_0 : trie N :=
  (Nd (Nd (Nd (Nd (Nd (Lf 0) (Lf 0)) (Nd (Lf 0) (Lf 0))) (Nd (Nd (Lf 0) (Lf 0)) (Nd (Lf 0) (Lf 0)))) (Nd (Nd
  (Nd (Lf 0) (Lf 0x400000)) (Nd (Lf 0x800000) (Lf 0x400000))) (Nd (Nd (Lf 0x800000) (Lf 0x800000)) (Nd (Lf 0)
  (Lf 0))))) (Nd (Nd (Nd (Nd (Lf 0) (Lf 0)) (Nd (Lf 0) (Lf 0))) (Nd (Nd (Lf 0) (Lf 0)) (Nd (Lf 0) (Lf 0))))
  (Nd (Nd (Nd (Lf 0) (Lf 0)) (Nd (Lf 0) (Lf 0))) (Nd (Nd (Lf 0xC00000) (Lf 0xC00000)) (Nd (Lf 0xC00000) (Lf
  0x1000000)))))).
Definition up_1 : trie N :=
  (Nd (Nd (Nd (Nd (Nd (Lf 0x1400000) (Lf 0x1800000)) (Nd (Lf 0x1C00000) (Lf 0x2000000))) (Nd (Nd (Lf
  0x2400000) (Lf 0x2000000)) (Nd (Lf 0x2800000) (Lf 0x2C00000)))) (Nd (Nd (Nd (Lf 0x3000000) (Lf 0x3400000))
  (Nd (Lf 0x2800000) (Lf 0x3800000))) (Nd (Nd (Lf 0x3C00000) (Lf 0x4000000)) (Nd (Lf 0x3C00000) (Lf
  0x4400000))))) (Nd (Nd (Nd (Nd (Lf 0x4800000) (Lf 0x4C00000)) (Nd (Lf 0x4C00000) (Lf 0x4C00000))) (Nd (Nd
  (Lf 0x4C00000) (Lf 0x4C00000)) (Nd (Lf 0x4C00000) (Lf 0x4C00000)))) (Nd (Nd (Nd (Lf 0x4C00000) (Lf
  0x4C00000)) (Nd (Lf 0x3C00000) (Lf 0x1800000))) (Nd (Nd (Lf 0x5000000) (Lf 0x5000000)) (Nd (Lf 0x5000000)
  (Lf 0x1800000)))))).
Definition up_2 : trie N :=
  (Nd (Nd (Nd (Nd (Nd (Lf 0x2800000) (Lf 0x5400000)) (Nd (Lf 0x5400000) (Lf 0x5400000))) (Nd (Nd (Lf
  0x5400000) (Lf 0x5400000)) (Nd (Lf 0x5400000) (Lf 0x5800000)))) (Nd (Nd (Nd (Lf 0x5800000) (Lf 0x5800000))
  (Nd (Lf 0x5800000) (Lf 0x5800000))) (Nd (Nd (Lf 0x5800000) (Lf 0x5800000)) (Nd (Lf 0x5800000) (Lf
  0x5800000))))) (Nd (Nd (Nd (Nd (Lf 0x5800000) (Lf 0x5800000)) (Nd (Lf 0x5800000) (Lf 0x5800000))) (Nd (Nd
  (Lf 0x5800000) (Lf 0x5800000)) (Nd (Lf 0x5800000) (Lf 0x5800000)))) (Nd (Nd (Nd (Lf 0x5800000) (Lf
  0x5800000)) (Nd (Lf 0x5800000) (Lf 0x3000000))) (Nd (Nd (Lf 0x2800000) (Lf 0x3400000)) (Nd (Lf 0x5C00000)
  (Lf 0x6000000)))))).
Definition up_3 : trie N :=
  (Nd (Nd (Nd (Nd (Nd (Lf 0x5C00000) (Lf 0x6400000)) (Nd (Lf 0x6400000) (Lf 0x6400000))) (Nd (Nd (Lf
  0x6400000) (Lf 0x6400000)) (Nd (Lf 0x6400000) (Lf 0x6800000)))) (Nd (Nd (Nd (Lf 0x6800000) (Lf 0x6800000))
  (Nd (Lf 0x6800000) (Lf 0x6800000))) (Nd (Nd (Lf 0x6800000) (Lf 0x6800000)) (Nd (Lf 0x6800000) (Lf
  0x6800000))))) (Nd (Nd (Nd (Nd (Lf 0x6800000) (Lf 0x6800000)) (Nd (Lf 0x6800000) (Lf 0x6800000))) (Nd (Nd
  (Lf 0x6800000) (Lf 0x6800000)) (Nd (Lf 0x6800000) (Lf 0x6800000)))) (Nd (Nd (Nd (Lf 0x6800000) (Lf
  0x6800000)) (Nd (Lf 0x6800000) (Lf 0x3000000))) (Nd (Nd (Lf 0x5000000) (Lf 0x3400000)) (Nd (Lf 0x5000000)
  (Lf 0)))))).
Definition up_4 : trie N :=
  (Nd (Nd (Nd (Nd (Nd (Lf 0) (Lf 0)) (Nd (Lf 0) (Lf 0))) (Nd (Nd (Lf 0) (Lf 0x6C00000)) (Nd (Lf 0) (Lf 0))))
  (Nd (Nd (Nd (Lf 0) (Lf 0)) (Nd (Lf 0) (Lf 0))) (Nd (Nd (Lf 0) (Lf 0)) (Nd (Lf 0) (Lf 0))))) (Nd (Nd (Nd (Nd
  (Lf 0) (Lf 0)) (Nd (Lf 0) (Lf 0))) (Nd (Nd (Lf 0) (Lf 0)) (Nd (Lf 0) (Lf 0)))) (Nd (Nd (Nd (Lf 0) (Lf 0))
  (Nd (Lf 0) (Lf 0))) (Nd (Nd (Lf 0) (Lf 0)) (Nd (Lf 0) (Lf 0)))))).
Definition up_5 : trie N :=
  (Nd (Nd (Nd (Nd (Nd (Lf 0x7010000) (Lf 0x2800000)) (Nd (Lf 0x2400000) (Lf 0x2400000))) (Nd (Nd (Lf
  0x2400000) (Lf 0x2400000)) (Nd (Lf 0x7400000) (Lf 0x7400000)))) (Nd (Nd (Nd (Lf 0x7820001) (Lf 0x7400000))
  (Nd (Lf 0x7C10003) (Lf 0x8000000))) (Nd (Nd (Lf 0x5000000) (Lf 0x8400000)) (Nd (Lf 0x7400000) (Lf
  0x7820004))))) (Nd (Nd (Nd (Nd (Lf 0x8800000) (Lf 0x3800000)) (Nd (Lf 0x8C10006) (Lf 0x8C10007))) (Nd (Nd
  (Lf 0x7820008) (Lf 0x901000A)) (Nd (Lf 0x7400000) (Lf 0x9400000)))) (Nd (Nd (Nd (Lf 0x782000B) (Lf
  0x981000D)) (Nd (Lf 0x7C1000E) (Lf 0x9C00000))) (Nd (Nd (Lf 0xA03000F) (Lf 0xA030012)) (Nd (Lf 0xA030015)
  (Lf 0x2800000)))))).
Definition up_6 : trie N :=
  (Nd (Nd (Nd (Nd (Nd (Lf 0xA420018) (Lf 0xA42001A)) (Nd (Lf 0xA42001C) (Lf 0xA42001E))) (Nd (Nd (Lf
  0xA420020) (Lf 0xA420022)) (Nd (Lf 0x5800000) (Lf 0xA420024)))) (Nd (Nd (Nd (Lf 0xA420026) (Lf 0xA420028))
  (Nd (Lf 0xA42002A) (Lf 0xA42002C))) (Nd (Nd (Lf 0xA42002E) (Lf 0xA420030)) (Nd (Lf 0xA420032) (Lf
  0xA420034))))) (Nd (Nd (Nd (Nd (Lf 0x5800000) (Lf 0xA420036)) (Nd (Lf 0xA420038) (Lf 0xA42003A))) (Nd (Nd
  (Lf 0xA42003C) (Lf 0xA42003E)) (Nd (Lf 0xA420040) (Lf 0x5000000)))) (Nd (Nd (Nd (Lf 0x5800000) (Lf
  0xA420042)) (Nd (Lf 0xA420044) (Lf 0xA420046))) (Nd (Nd (Lf 0xA420048) (Lf 0xA42004A)) (Nd (Lf 0x5800000)
  (Lf 0xA800000)))))).
Definition up_7 : trie N :=
  (Nd (Nd (Nd (Nd (Nd (Lf 0xAC2004C) (Lf 0xAC2004E)) (Nd (Lf 0xAC20050) (Lf 0xAC20052))) (Nd (Nd (Lf
  0xAC20054) (Lf 0xAC20056)) (Nd (Lf 0x6800000) (Lf 0xAC20058)))) (Nd (Nd (Nd (Lf 0xAC2005A) (Lf 0xAC2005C))
  (Nd (Lf 0xAC2005E) (Lf 0xAC20060))) (Nd (Nd (Lf 0xAC20062) (Lf 0xAC20064)) (Nd (Lf 0xAC20066) (Lf
  0xAC20068))))) (Nd (Nd (Nd (Nd (Lf 0x6800000) (Lf 0xAC2006A)) (Nd (Lf 0xAC2006C) (Lf 0xAC2006E))) (Nd (Nd
  (Lf 0xAC20070) (Lf 0xAC20072)) (Nd (Lf 0xAC20074) (Lf 0x5000000)))) (Nd (Nd (Nd (Lf 0x6800000) (Lf
  0xAC20076)) (Nd (Lf 0xAC20078) (Lf 0xAC2007A))) (Nd (Nd (Lf 0xAC2007C) (Lf 0xAC2007E)) (Nd (Lf 0x6800000)
  (Lf 0xB020080)))))).
Definition up_8 : trie N :=
  (Nd (Nd (Nd (Nd (Nd (Lf 0xB420082) (Lf 0xB820084)) (Nd (Lf 0xB420086) (Lf 0xB820088))) (Nd (Nd (Lf
  0xB42008A) (Lf 0xB82008C)) (Nd (Lf 0xB42008E) (Lf 0xB820090)))) (Nd (Nd (Nd (Lf 0xB420092) (Lf 0xB820094))
  (Nd (Lf 0xB420096) (Lf 0xB820098))) (Nd (Nd (Lf 0xB42009A) (Lf 0xB82009C)) (Nd (Lf 0xB42009E) (Lf
  0xB8200A0))))) (Nd (Nd (Nd (Nd (Lf 0xBC00000) (Lf 0xC000000)) (Nd (Lf 0xB4200A2) (Lf 0xB8200A4))) (Nd (Nd
  (Lf 0xB4200A6) (Lf 0xB8200A8)) (Nd (Lf 0xB4200AA) (Lf 0xB8200AC)))) (Nd (Nd (Nd (Lf 0xB4200AE) (Lf
  0xB8200B0)) (Nd (Lf 0xB4200B2) (Lf 0xB8200B4))) (Nd (Nd (Lf 0xB4200B6) (Lf 0xB8200B8)) (Nd (Lf 0xB4200BA)
  (Lf 0xB8200BC)))))).
Definition up_9 : trie N :=
  (Nd (Nd (Nd (Nd (Nd (Lf 0xB4200BE) (Lf 0xB8200C0)) (Nd (Lf 0xB4200C2) (Lf 0xB8200C4))) (Nd (Nd (Lf
  0xB4200C6) (Lf 0xB8200C8)) (Nd (Lf 0xBC00000) (Lf 0xC000000)))) (Nd (Nd (Nd (Lf 0xB4200CA) (Lf 0xB8200CC))
  (Nd (Lf 0xB4200CE) (Lf 0xB8200D0))) (Nd (Nd (Lf 0xB4200D2) (Lf 0xB8200D4)) (Nd (Lf 0xB4200D6) (Lf
  0xB8200D8))))) (Nd (Nd (Nd (Nd (Lf 0xC4200DA) (Lf 0xC800000)) (Nd (Lf 0xCC200DC) (Lf 0xD0200DE))) (Nd (Nd
  (Lf 0xB4200E0) (Lf 0xB8200E2)) (Nd (Lf 0xB4200E4) (Lf 0xB8200E6)))) (Nd (Nd (Nd (Lf 0xA800000) (Lf
  0xB4200E8)) (Nd (Lf 0xB8200EA) (Lf 0xB4200EC))) (Nd (Nd (Lf 0xB8200EE) (Lf 0xB4200F0)) (Nd (Lf 0xB8200F2)
  (Lf 0xCC200F4)))))).
Definition up_10 : trie N :=
  (Nd (Nd (Nd (Nd (Nd (Lf 0xD0200F6) (Lf 0xBC00000)) (Nd (Lf 0xC000000) (Lf 0xB4200F8))) (Nd (Nd (Lf
  0xB8200FA) (Lf 0xB4200FC)) (Nd (Lf 0xB8200FE) (Lf 0xB420100)))) (Nd (Nd (Nd (Lf 0xB820102) (Lf 0x7C20104))
  (Nd (Lf 0xBC00000) (Lf 0xC000000))) (Nd (Nd (Lf 0xB420106) (Lf 0xB820108)) (Nd (Lf 0xB42010A) (Lf
  0xB82010C))))) (Nd (Nd (Nd (Nd (Lf 0xB42010E) (Lf 0xB820110)) (Nd (Lf 0xBC00000) (Lf 0xC000000))) (Nd (Nd
  (Lf 0xB420112) (Lf 0xB820114)) (Nd (Lf 0xB420116) (Lf 0xB820118)))) (Nd (Nd (Nd (Lf 0xB42011A) (Lf
  0xB82011C)) (Nd (Lf 0xB42011E) (Lf 0xB820120))) (Nd (Nd (Lf 0xB420122) (Lf 0xB820124)) (Nd (Lf 0xB420126)
  (Lf 0xB820128)))))).
Definition up_11 : trie N :=
  (Nd (Nd (Nd (Nd (Nd (Lf 0xB42012A) (Lf 0xB82012C)) (Nd (Lf 0xB42012E) (Lf 0xB820130))) (Nd (Nd (Lf
  0xB420132) (Lf 0xB820134)) (Nd (Lf 0xBC00000) (Lf 0xC000000)))) (Nd (Nd (Nd (Lf 0xB420136) (Lf 0xB820138))
  (Nd (Lf 0xB42013A) (Lf 0xB82013C))) (Nd (Nd (Lf 0xB42013E) (Lf 0xB820140)) (Nd (Lf 0xB420142) (Lf
  0xB820144))))) (Nd (Nd (Nd (Nd (Lf 0xB420146) (Lf 0xB820148)) (Nd (Lf 0xB42014A) (Lf 0xB82014C))) (Nd (Nd
  (Lf 0xB42014E) (Lf 0xB820150)) (Nd (Lf 0xB420152) (Lf 0xB820154)))) (Nd (Nd (Nd (Lf 0xD420156) (Lf
  0xB420158)) (Nd (Lf 0xB82015A) (Lf 0xB42015C))) (Nd (Nd (Lf 0xB82015E) (Lf 0xB420160)) (Nd (Lf 0xB820162)
  (Lf 0xD810164)))))).
Definition up_12 : trie N :=
  (Nd (Nd (Nd (Nd (Nd (Lf 0xA800000) (Lf 0xDC00000)) (Nd (Lf 0xBC00000) (Lf 0xC000000))) (Nd (Nd (Lf
  0xBC00000) (Lf 0xC000000)) (Nd (Lf 0xE000000) (Lf 0xBC00000)))) (Nd (Nd (Nd (Lf 0xC000000) (Lf 0xE400000))
  (Nd (Lf 0xE400000) (Lf 0xBC00000))) (Nd (Nd (Lf 0xC000000) (Lf 0xA800000)) (Nd (Lf 0xE800000) (Lf
  0xEC00000))))) (Nd (Nd (Nd (Nd (Lf 0xF000000) (Lf 0xBC00000)) (Nd (Lf 0xC000000) (Lf 0xE400000))) (Nd (Nd
  (Lf 0xF400000) (Lf 0xF800000)) (Nd (Lf 0xFC00000) (Lf 0x10000000)))) (Nd (Nd (Nd (Lf 0xBC00000) (Lf
  0xC000000)) (Nd (Lf 0xA800000) (Lf 0xA800000))) (Nd (Nd (Lf 0xFC00000) (Lf 0x10400000)) (Nd (Lf 0x10800000)
  (Lf 0x10C00000)))))).
Definition up_13 : trie N :=
  (Nd (Nd (Nd (Nd (Nd (Lf 0xB420165) (Lf 0xB820167)) (Nd (Lf 0xBC00000) (Lf 0xC000000))) (Nd (Nd (Lf
  0xBC00000) (Lf 0xC000000)) (Nd (Lf 0x11000000) (Lf 0xBC00000)))) (Nd (Nd (Nd (Lf 0xC000000) (Lf 0x11000000))
  (Nd (Lf 0xA800000) (Lf 0xA800000))) (Nd (Nd (Lf 0xBC00000) (Lf 0xC000000)) (Nd (Lf 0x11000000) (Lf
  0xB420169))))) (Nd (Nd (Nd (Nd (Lf 0xB82016B) (Lf 0x11400000)) (Nd (Lf 0x11400000) (Lf 0xBC00000))) (Nd (Nd
  (Lf 0xC000000) (Lf 0xBC00000)) (Nd (Lf 0xC000000) (Lf 0x11800000)))) (Nd (Nd (Nd (Lf 0xBC00000) (Lf
  0xC000000)) (Nd (Lf 0xA800000) (Lf 0x11C00000))) (Nd (Nd (Lf 0xBC00000) (Lf 0xC000000)) (Nd (Lf 0xA800000)
  (Lf 0x12000000)))))).
Definition up_14 : trie N :=
  (Nd (Nd (Nd (Nd (Nd (Lf 0x11C00000) (Lf 0x11C00000)) (Nd (Lf 0x11C00000) (Lf 0x11C00000))) (Nd (Nd (Lf
  0x1242016D) (Lf 0x1282016F)) (Nd (Lf 0x12C20171) (Lf 0x12420173)))) (Nd (Nd (Nd (Lf 0x12820175) (Lf
  0x12C20177)) (Nd (Lf 0x12420179) (Lf 0x1282017B))) (Nd (Nd (Lf 0x12C2017D) (Lf 0xB42017F)) (Nd (Lf
  0xB820181) (Lf 0xB420183))))) (Nd (Nd (Nd (Nd (Lf 0xB820185) (Lf 0xB420187)) (Nd (Lf 0xB820189) (Lf
  0xB42018B))) (Nd (Nd (Lf 0xB82018D) (Lf 0xB42018F)) (Nd (Lf 0xB820191) (Lf 0xB420193)))) (Nd (Nd (Nd (Lf
  0xB820195) (Lf 0xB420197)) (Nd (Lf 0xB820199) (Lf 0xB42019B))) (Nd (Nd (Lf 0xB82019D) (Lf 0x13000000)) (Nd
  (Lf 0xB42019F) (Lf 0xB8201A1)))))).
Definition up_15 : trie N :=
  (Nd (Nd (Nd (Nd (Nd (Lf 0xB4201A3) (Lf 0xB8201A5)) (Nd (Lf 0xB4201A7) (Lf 0xB8201A9))) (Nd (Nd (Lf
  0xBC00000) (Lf 0xC000000)) (Nd (Lf 0xB4201AB) (Lf 0xB8201AD)))) (Nd (Nd (Nd (Lf 0xB4201AF) (Lf 0xB8201B1))
  (Nd (Lf 0xB4201B3) (Lf 0xB8201B5))) (Nd (Nd (Lf 0xB4201B7) (Lf 0xB8201B9)) (Nd (Lf 0xB4201BB) (Lf
  0xB8201BD))))) (Nd (Nd (Nd (Nd (Lf 0x134201BF) (Lf 0x124201C1)) (Nd (Lf 0x128201C3) (Lf 0x12C201C5))) (Nd
  (Nd (Lf 0xB4201C7) (Lf 0xB8201C9)) (Nd (Lf 0x13800000) (Lf 0x13C00000)))) (Nd (Nd (Nd (Lf 0xB4201CB) (Lf
  0xB8201CD)) (Nd (Lf 0xB4201CF) (Lf 0xB8201D1))) (Nd (Nd (Lf 0xB4201D3) (Lf 0xB8201D5)) (Nd (Lf 0xB4201D7)
  (Lf 0xB8201D9)))))).
Definition up_16 : trie N :=
  (Nd (Nd (Nd (Nd (Nd (Lf 0xB4201DB) (Lf 0xB8201DD)) (Nd (Lf 0xB4201DF) (Lf 0xB8201E1))) (Nd (Nd (Lf
  0xB4201E3) (Lf 0xB8201E5)) (Nd (Lf 0xB4201E7) (Lf 0xB8201E9)))) (Nd (Nd (Nd (Lf 0xB4201EB) (Lf 0xB8201ED))
  (Nd (Lf 0xB4201EF) (Lf 0xB8201F1))) (Nd (Nd (Lf 0xB4201F3) (Lf 0xB8201F5)) (Nd (Lf 0xB4201F7) (Lf
  0xB8201F9))))) (Nd (Nd (Nd (Nd (Lf 0xB4201FB) (Lf 0xB8201FD)) (Nd (Lf 0xB4201FF) (Lf 0xB820201))) (Nd (Nd
  (Lf 0xB420203) (Lf 0xB820205)) (Nd (Lf 0xB420207) (Lf 0xB820209)))) (Nd (Nd (Nd (Lf 0xB42020B) (Lf
  0xB82020D)) (Nd (Lf 0xB42020F) (Lf 0xB820211))) (Nd (Nd (Lf 0xBC00000) (Lf 0xC000000)) (Nd (Lf 0xB420213)
  (Lf 0xB820215)))))).
Definition up_17 : trie N :=
  (Nd (Nd (Nd (Nd (Nd (Lf 0x14000000) (Lf 0xA800000)) (Nd (Lf 0xBC00000) (Lf 0xC000000))) (Nd (Nd (Lf
  0xBC00000) (Lf 0xC000000)) (Nd (Lf 0xB420217) (Lf 0xB820219)))) (Nd (Nd (Nd (Lf 0xB42021B) (Lf 0xB82021D))
  (Nd (Lf 0xB42021F) (Lf 0xB820221))) (Nd (Nd (Lf 0xB420223) (Lf 0xB820225)) (Nd (Lf 0xB420227) (Lf
  0xB820229))))) (Nd (Nd (Nd (Nd (Lf 0xB42022B) (Lf 0xB82022D)) (Nd (Lf 0xB42022F) (Lf 0xB820231))) (Nd (Nd
  (Lf 0xA800000) (Lf 0xA800000)) (Nd (Lf 0xA800000) (Lf 0x14400000)))) (Nd (Nd (Nd (Lf 0x14400000) (Lf
  0x14400000)) (Nd (Lf 0x14400000) (Lf 0x14400000))) (Nd (Nd (Lf 0x14400000) (Lf 0x14400000)) (Nd (Lf
  0x14400000) (Lf 0x14400000)))))).
Definition up_18 : trie N :=
  (Nd (Nd (Nd (Nd (Nd (Lf 0x14400000) (Lf 0x14400000)) (Nd (Lf 0x14400000) (Lf 0x14400000))) (Nd (Nd (Lf
  0x14400000) (Lf 0x14400000)) (Nd (Lf 0x14400000) (Lf 0x14400000)))) (Nd (Nd (Nd (Lf 0x14400000) (Lf
  0x14400000)) (Nd (Lf 0x14400000) (Lf 0x14400000))) (Nd (Nd (Lf 0x14400000) (Lf 0x14400000)) (Nd (Lf
  0x14400000) (Lf 0x14400000))))) (Nd (Nd (Nd (Nd (Lf 0xA800000) (Lf 0xA800000)) (Nd (Lf 0xA800000) (Lf
  0x14800000))) (Nd (Nd (Lf 0x14C00000) (Lf 0xA800000)) (Nd (Lf 0x15000000) (Lf 0x15000000)))) (Nd (Nd (Nd (Lf
  0xA800000) (Lf 0x15400000)) (Nd (Lf 0xA800000) (Lf 0x15800000))) (Nd (Nd (Lf 0xA800000) (Lf 0xA800000)) (Nd
  (Lf 0xA800000) (Lf 0xA800000)))))).
Definition up_19 : trie N :=
  (Nd (Nd (Nd (Nd (Nd (Lf 0x15000000) (Lf 0xA800000)) (Nd (Lf 0xA800000) (Lf 0x15C00000))) (Nd (Nd (Lf
  0xA800000) (Lf 0xA800000)) (Nd (Lf 0xA800000) (Lf 0xA800000)))) (Nd (Nd (Nd (Lf 0x16000000) (Lf 0x16400000))
  (Nd (Lf 0xA800000) (Lf 0xA800000))) (Nd (Nd (Lf 0xA800000) (Lf 0xA800000)) (Nd (Lf 0xA800000) (Lf
  0x16400000))))) (Nd (Nd (Nd (Nd (Lf 0xA800000) (Lf 0xA800000)) (Nd (Lf 0x16800000) (Lf 0xA800000))) (Nd (Nd
  (Lf 0xA800000) (Lf 0x16C00000)) (Nd (Lf 0xA800000) (Lf 0xA800000)))) (Nd (Nd (Nd (Lf 0xA800000) (Lf
  0xA800000)) (Nd (Lf 0xA800000) (Lf 0xA800000))) (Nd (Nd (Lf 0xA800000) (Lf 0xA800000)) (Nd (Lf 0xA800000)
  (Lf 0xA800000)))))).
Definition up_20 : trie N :=
  (Nd (Nd (Nd (Nd (Nd (Lf 0x17000000) (Lf 0xA800000)) (Nd (Lf 0xA800000) (Lf 0x17000000))) (Nd (Nd (Lf
  0xA800000) (Lf 0xA800000)) (Nd (Lf 0xA800000) (Lf 0xA800000)))) (Nd (Nd (Nd (Lf 0x17000000) (Lf 0xA800000))
  (Nd (Lf 0x17400000) (Lf 0x17400000))) (Nd (Nd (Lf 0xA800000) (Lf 0xA800000)) (Nd (Lf 0xA800000) (Lf
  0xA800000))))) (Nd (Nd (Nd (Nd (Lf 0xA800000) (Lf 0xA800000)) (Nd (Lf 0x17800000) (Lf 0xA800000))) (Nd (Nd
  (Lf 0xA800000) (Lf 0xA800000)) (Nd (Lf 0xA800000) (Lf 0xA800000)))) (Nd (Nd (Nd (Lf 0xA800000) (Lf
  0xA800000)) (Nd (Lf 0xA800000) (Lf 0xA800000))) (Nd (Nd (Lf 0xA800000) (Lf 0xA800000)) (Nd (Lf 0xA800000)
  (Lf 0xA800000)))))).
Definition up_21 : trie N :=
  (Nd (Nd (Nd (Nd (Nd (Lf 0xA800000) (Lf 0xA800000)) (Nd (Lf 0xA800000) (Lf 0xA800000))) (Nd (Nd (Lf
  0xA800000) (Lf 0xA800000)) (Nd (Lf 0xA800000) (Lf 0xA800000)))) (Nd (Nd (Nd (Lf 0xA800000) (Lf 0xA800000))
  (Nd (Lf 0xA800000) (Lf 0xA800000))) (Nd (Nd (Lf 0xA800000) (Lf 0xA800000)) (Nd (Lf 0xA800000) (Lf
  0xA800000))))) (Nd (Nd (Nd (Nd (Lf 0x17C10233) (Lf 0x17C10234)) (Nd (Lf 0x17C10235) (Lf 0x17C10236))) (Nd
  (Nd (Lf 0x17C10237) (Lf 0x17C10238)) (Nd (Lf 0x17C10239) (Lf 0x17C1023A)))) (Nd (Nd (Nd (Lf 0x17C1023B) (Lf
  0x18000000)) (Nd (Lf 0x18000000) (Lf 0x18400000))) (Nd (Nd (Lf 0x18400000) (Lf 0x18400000)) (Nd (Lf
  0x18400000) (Lf 0x18400000)))))).
Definition up_22 : trie N :=
  (Nd (Nd (Nd (Nd (Nd (Lf 0x18400000) (Lf 0x18400000)) (Nd (Lf 0x5C00000) (Lf 0x5C00000))) (Nd (Nd (Lf
  0x5C00000) (Lf 0x5C00000)) (Nd (Lf 0x18000000) (Lf 0x18800000)))) (Nd (Nd (Nd (Lf 0x18000000) (Lf
  0x18000000)) (Nd (Lf 0x18000000) (Lf 0x18000000))) (Nd (Nd (Lf 0x18000000) (Lf 0x18000000)) (Nd (Lf
  0x18000000) (Lf 0x18000000))))) (Nd (Nd (Nd (Nd (Lf 0x18C00000) (Lf 0x18C00000)) (Nd (Lf 0x5C00000) (Lf
  0x5C00000))) (Nd (Nd (Lf 0x5C00000) (Lf 0x5C00000)) (Nd (Lf 0x5C00000) (Lf 0x5C00000)))) (Nd (Nd (Nd (Lf
  0x782023C) (Lf 0x782023E)) (Nd (Lf 0x7820240) (Lf 0x7820242))) (Nd (Nd (Lf 0x7820244) (Lf 0x7820246)) (Nd
  (Lf 0x5C00000) (Lf 0x5C00000)))))).
Definition up_23 : trie N :=
  (Nd (Nd (Nd (Nd (Nd (Lf 0x17C10248) (Lf 0x17C10249)) (Nd (Lf 0x17C1024A) (Lf 0x17C1024B))) (Nd (Nd (Lf
  0x17C1024C) (Lf 0x5C00000)) (Nd (Lf 0x5C00000) (Lf 0x5C00000)))) (Nd (Nd (Nd (Lf 0x5C00000) (Lf 0x5C00000))
  (Nd (Lf 0x5C00000) (Lf 0x5C00000))) (Nd (Nd (Lf 0x5C00000) (Lf 0x5C00000)) (Nd (Lf 0x18400000) (Lf
  0x5C00000))))) (Nd (Nd (Nd (Nd (Lf 0x5C00000) (Lf 0x5C00000)) (Nd (Lf 0x5C00000) (Lf 0x5C00000))) (Nd (Nd
  (Lf 0x5C00000) (Lf 0x5C00000)) (Nd (Lf 0x5C00000) (Lf 0x5C00000)))) (Nd (Nd (Nd (Lf 0x5C00000) (Lf
  0x5C00000)) (Nd (Lf 0x5C00000) (Lf 0x5C00000))) (Nd (Nd (Lf 0x5C00000) (Lf 0x5C00000)) (Nd (Lf 0x5C00000)
  (Lf 0x5C00000)))))).
Definition up_24 : trie N :=
  (Nd (Nd (Nd (Nd (Nd (Lf 0x19000000) (Lf 0x19000000)) (Nd (Lf 0x19000000) (Lf 0x19000000))) (Nd (Nd (Lf
  0x19000000) (Lf 0x19000000)) (Nd (Lf 0x19000000) (Lf 0x19000000)))) (Nd (Nd (Nd (Lf 0x19000000) (Lf
  0x19000000)) (Nd (Lf 0x19000000) (Lf 0x19000000))) (Nd (Nd (Lf 0x19000000) (Lf 0x19000000)) (Nd (Lf
  0x19000000) (Lf 0x19000000))))) (Nd (Nd (Nd (Nd (Lf 0x19000000) (Lf 0x19000000)) (Nd (Lf 0x19000000) (Lf
  0x19000000))) (Nd (Nd (Lf 0x19000000) (Lf 0x19000000)) (Nd (Lf 0x19000000) (Lf 0x19000000)))) (Nd (Nd (Nd
  (Lf 0x19000000) (Lf 0x19000000)) (Nd (Lf 0x19000000) (Lf 0x19000000))) (Nd (Nd (Lf 0x19000000) (Lf
  0x19000000)) (Nd (Lf 0x19000000) (Lf 0x19000000)))))).
Definition up_25 : trie N :=
  (Nd (Nd (Nd (Nd (Nd (Lf 0x1941024D) (Lf 0x1941024E)) (Nd (Lf 0x19000000) (Lf 0x1941024F))) (Nd (Nd (Lf
  0x19420250) (Lf 0x19800000)) (Nd (Lf 0x19000000) (Lf 0x19000000)))) (Nd (Nd (Nd (Lf 0x19000000) (Lf
  0x19000000)) (Nd (Lf 0x19000000) (Lf 0x19000000))) (Nd (Nd (Lf 0x19000000) (Lf 0x19000000)) (Nd (Lf
  0x19000000) (Lf 0x19C00000))))) (Nd (Nd (Nd (Nd (Lf 0x19000000) (Lf 0x19000000)) (Nd (Lf 0x19000000) (Lf
  0x19000000))) (Nd (Nd (Lf 0x19000000) (Lf 0x19000000)) (Nd (Lf 0x19000000) (Lf 0x19000000)))) (Nd (Nd (Nd
  (Lf 0x14400000) (Lf 0x14400000)) (Nd (Lf 0x14400000) (Lf 0x14400000))) (Nd (Nd (Lf 0x14400000) (Lf
  0x19000000)) (Nd (Lf 0x19000000) (Lf 0x19000000)))))).
Definition up_26 : trie N :=
  (Nd (Nd (Nd (Nd (Nd (Lf 0x19000000) (Lf 0x19000000)) (Nd (Lf 0x19000000) (Lf 0x19000000))) (Nd (Nd (Lf
  0x19000000) (Lf 0x19000000)) (Nd (Lf 0x19000000) (Lf 0x19000000)))) (Nd (Nd (Nd (Lf 0x19000000) (Lf
  0x19000000)) (Nd (Lf 0x19000000) (Lf 0x19000000))) (Nd (Nd (Lf 0x19000000) (Lf 0x19000000)) (Nd (Lf
  0x19000000) (Lf 0x19000000))))) (Nd (Nd (Nd (Nd (Lf 0x14400000) (Lf 0x14400000)) (Nd (Lf 0x14400000) (Lf
  0x14400000))) (Nd (Nd (Lf 0x1A010252) (Lf 0x5C00000)) (Nd (Lf 0x14400000) (Lf 0x14400000)))) (Nd (Nd (Nd (Lf
  0x14400000) (Lf 0x14400000)) (Nd (Lf 0x1A420253) (Lf 0x14400000))) (Nd (Nd (Lf 0x14400000) (Lf 0x14400000))
  (Nd (Lf 0x1A810255) (Lf 0x14400000)))))).
Definition up_27 : trie N :=
  (Nd (Nd (Nd (Nd (Nd (Lf 0x14400000) (Lf 0x14400000)) (Nd (Lf 0x14400000) (Lf 0x14400000))) (Nd (Nd (Lf
  0x7820256) (Lf 0x1A020258)) (Nd (Lf 0x1AC2025A) (Lf 0x1A81025C)))) (Nd (Nd (Nd (Lf 0x1B02025D) (Lf
  0x1B02025F)) (Nd (Lf 0x1B020261) (Lf 0x14400000))) (Nd (Nd (Lf 0x1B420263) (Lf 0x14400000)) (Nd (Lf
  0x1B820265) (Lf 0x1B820267))))) (Nd (Nd (Nd (Nd (Lf 0x13420269) (Lf 0x5800000)) (Nd (Lf 0x5800000) (Lf
  0x5800000))) (Nd (Nd (Lf 0x5800000) (Lf 0x5800000)) (Nd (Lf 0x5800000) (Lf 0x5800000)))) (Nd (Nd (Nd (Lf
  0x5800000) (Lf 0x5800000)) (Nd (Lf 0x5800000) (Lf 0x5800000))) (Nd (Nd (Lf 0x5800000) (Lf 0x5800000)) (Nd
  (Lf 0x5800000) (Lf 0x5800000)))))).
Definition up_28 : trie N :=
  (Nd (Nd (Nd (Nd (Nd (Lf 0x5800000) (Lf 0x5800000)) (Nd (Lf 0x14400000) (Lf 0x5800000))) (Nd (Nd (Lf
  0x5800000) (Lf 0x5800000)) (Nd (Lf 0x5800000) (Lf 0x5800000)))) (Nd (Nd (Nd (Lf 0x5800000) (Lf 0x5800000))
  (Nd (Lf 0xA42026B) (Lf 0xA42026D))) (Nd (Nd (Lf 0x1BC2026F) (Lf 0x1C020271)) (Nd (Lf 0x1C020273) (Lf
  0x1C020275))))) (Nd (Nd (Nd (Nd (Lf 0x13420277) (Lf 0x6800000)) (Nd (Lf 0x6800000) (Lf 0x6800000))) (Nd (Nd
  (Lf 0x6800000) (Lf 0x6800000)) (Nd (Lf 0x6800000) (Lf 0x6800000)))) (Nd (Nd (Nd (Lf 0x6800000) (Lf
  0x6800000)) (Nd (Lf 0x6800000) (Lf 0x6800000))) (Nd (Nd (Lf 0x6800000) (Lf 0x6800000)) (Nd (Lf 0x6800000)
  (Lf 0x6800000)))))).
Definition up_29 : trie N :=
  (Nd (Nd (Nd (Nd (Nd (Lf 0x6800000) (Lf 0x6800000)) (Nd (Lf 0x1C400000) (Lf 0x6800000))) (Nd (Nd (Lf
  0x6800000) (Lf 0x6800000)) (Nd (Lf 0x6800000) (Lf 0x6800000)))) (Nd (Nd (Nd (Lf 0x6800000) (Lf 0x6800000))
  (Nd (Lf 0xAC20279) (Lf 0xAC2027B))) (Nd (Nd (Lf 0x1C82027D) (Lf 0x1CC2027F)) (Nd (Lf 0x1CC20281) (Lf
  0x14400000))))) (Nd (Nd (Nd (Nd (Lf 0x1D010283) (Lf 0x1D410284)) (Nd (Lf 0x1D810285) (Lf 0x1DC20286))) (Nd
  (Nd (Lf 0x1DC20288) (Lf 0x1E01028A)) (Nd (Lf 0x1E41028B) (Lf 0xA800000)))) (Nd (Nd (Nd (Lf 0xBC00000) (Lf
  0xC000000)) (Nd (Lf 0xBC00000) (Lf 0xC000000))) (Nd (Nd (Lf 0xBC00000) (Lf 0xC000000)) (Nd (Lf 0xBC00000)
  (Lf 0xC000000)))))).
Definition up_30 : trie N :=
  (Nd (Nd (Nd (Nd (Nd (Lf 0xBC00000) (Lf 0xC000000)) (Nd (Lf 0xBC00000) (Lf 0xC000000))) (Nd (Nd (Lf
  0xBC00000) (Lf 0xC000000)) (Nd (Lf 0xBC00000) (Lf 0xC000000)))) (Nd (Nd (Nd (Lf 0xBC00000) (Lf 0xC000000))
  (Nd (Lf 0xBC00000) (Lf 0xC000000))) (Nd (Nd (Lf 0xBC00000) (Lf 0xC000000)) (Nd (Lf 0xBC00000) (Lf
  0xC000000))))) (Nd (Nd (Nd (Nd (Lf 0x1E81028C) (Lf 0x1EC1028D)) (Nd (Lf 0x1F01028E) (Lf 0xA800000))) (Nd (Nd
  (Lf 0x1F41028F) (Lf 0x1F810290)) (Nd (Lf 0x5000000) (Lf 0xBC00000)))) (Nd (Nd (Nd (Lf 0xC000000) (Lf
  0x1FC10291)) (Nd (Lf 0xBC00000) (Lf 0xC000000))) (Nd (Nd (Lf 0x14400000) (Lf 0x14400000)) (Nd (Lf
  0x14400000) (Lf 0x14400000)))))).
Definition up_31 : trie N :=
  (Nd (Nd (Nd (Nd (Nd (Lf 0x20020292) (Lf 0x20020294)) (Nd (Lf 0x20400000) (Lf 0x20020296))) (Nd (Nd (Lf
  0x20400000) (Lf 0x20400000)) (Nd (Lf 0x20400000) (Lf 0x20020298)))) (Nd (Nd (Nd (Lf 0x20400000) (Lf
  0x20400000)) (Nd (Lf 0x20400000) (Lf 0x20400000))) (Nd (Nd (Lf 0x2002029A) (Lf 0x2002029C)) (Nd (Lf
  0x2002029E) (Lf 0x20400000))))) (Nd (Nd (Nd (Nd (Lf 0x5800000) (Lf 0x5800000)) (Nd (Lf 0x5800000) (Lf
  0x5800000))) (Nd (Nd (Lf 0x5800000) (Lf 0x5800000)) (Nd (Lf 0x5800000) (Lf 0x5800000)))) (Nd (Nd (Nd (Lf
  0x5800000) (Lf 0xA4202A0)) (Nd (Lf 0x5800000) (Lf 0x5800000))) (Nd (Nd (Lf 0x5800000) (Lf 0x5800000)) (Nd
  (Lf 0x5800000) (Lf 0x5800000)))))).
Definition up_32 : trie N :=
  (Nd (Nd (Nd (Nd (Nd (Lf 0x5800000) (Lf 0x5800000)) (Nd (Lf 0x5800000) (Lf 0x5800000))) (Nd (Nd (Lf
  0x5800000) (Lf 0x5800000)) (Nd (Lf 0x5800000) (Lf 0x5800000)))) (Nd (Nd (Nd (Lf 0x5800000) (Lf 0x5800000))
  (Nd (Lf 0x5800000) (Lf 0x5800000))) (Nd (Nd (Lf 0x5800000) (Lf 0x5800000)) (Nd (Lf 0x5800000) (Lf
  0x5800000))))) (Nd (Nd (Nd (Nd (Lf 0x6800000) (Lf 0x6800000)) (Nd (Lf 0x6800000) (Lf 0x6800000))) (Nd (Nd
  (Lf 0x6800000) (Lf 0x6800000)) (Nd (Lf 0x6800000) (Lf 0x6800000)))) (Nd (Nd (Nd (Lf 0x6800000) (Lf
  0xAC202A2)) (Nd (Lf 0x6800000) (Lf 0x6800000))) (Nd (Nd (Lf 0x6800000) (Lf 0x6800000)) (Nd (Lf 0x6800000)
  (Lf 0x6800000)))))).
Definition up_33 : trie N :=
  (Nd (Nd (Nd (Nd (Nd (Lf 0x6800000) (Lf 0x6800000)) (Nd (Lf 0x6800000) (Lf 0x6800000))) (Nd (Nd (Lf
  0x6800000) (Lf 0x6800000)) (Nd (Lf 0x6800000) (Lf 0x6800000)))) (Nd (Nd (Nd (Lf 0x6800000) (Lf 0x6800000))
  (Nd (Lf 0x6800000) (Lf 0x6800000))) (Nd (Nd (Lf 0x6800000) (Lf 0x6800000)) (Nd (Lf 0x6800000) (Lf
  0x6800000))))) (Nd (Nd (Nd (Nd (Lf 0x208202A4) (Lf 0x208202A6)) (Nd (Lf 0x20C00000) (Lf 0x208202A8))) (Nd
  (Nd (Lf 0x20C00000) (Lf 0x20C00000)) (Nd (Lf 0x20C00000) (Lf 0x208202AA)))) (Nd (Nd (Nd (Lf 0x20C00000) (Lf
  0x20C00000)) (Nd (Lf 0x20C00000) (Lf 0x20C00000))) (Nd (Nd (Lf 0x208202AC) (Lf 0x208202AE)) (Nd (Lf
  0x208202B0) (Lf 0x20C00000)))))).
Definition up_34 : trie N :=
  (Nd (Nd (Nd (Nd (Nd (Lf 0xBC00000) (Lf 0xC000000)) (Nd (Lf 0xBC00000) (Lf 0xC000000))) (Nd (Nd (Lf
  0xBC00000) (Lf 0xC000000)) (Nd (Lf 0xBC00000) (Lf 0xC000000)))) (Nd (Nd (Nd (Lf 0xBC00000) (Lf 0xC000000))
  (Nd (Lf 0xBC00000) (Lf 0xC000000))) (Nd (Nd (Lf 0xBC00000) (Lf 0xC000000)) (Nd (Lf 0xBC00000) (Lf
  0xC000000))))) (Nd (Nd (Nd (Nd (Lf 0xBC00000) (Lf 0xC000000)) (Nd (Lf 0xBC00000) (Lf 0xC000000))) (Nd (Nd
  (Lf 0xBC00000) (Lf 0xC000000)) (Nd (Lf 0xB4202B2) (Lf 0xB8202B4)))) (Nd (Nd (Nd (Lf 0xBC00000) (Lf
  0xC000000)) (Nd (Lf 0xBC00000) (Lf 0xC000000))) (Nd (Nd (Lf 0xBC00000) (Lf 0xC000000)) (Nd (Lf 0xBC00000)
  (Lf 0xC000000)))))).
Definition up_35 : trie N :=
  (Nd (Nd (Nd (Nd (Nd (Lf 0xBC00000) (Lf 0xC000000)) (Nd (Lf 0x21000000) (Lf 0x19000000))) (Nd (Nd (Lf
  0x19000000) (Lf 0x19000000)) (Nd (Lf 0x19000000) (Lf 0x14400000)))) (Nd (Nd (Nd (Lf 0x21400000) (Lf
  0x21400000)) (Nd (Lf 0xBC00000) (Lf 0xC000000))) (Nd (Nd (Lf 0xBC00000) (Lf 0xC000000)) (Nd (Lf 0xBC00000)
  (Lf 0xC000000))))) (Nd (Nd (Nd (Nd (Lf 0xBC00000) (Lf 0xC000000)) (Nd (Lf 0xBC00000) (Lf 0xC000000))) (Nd
  (Nd (Lf 0xBC00000) (Lf 0xC000000)) (Nd (Lf 0xBC00000) (Lf 0xC000000)))) (Nd (Nd (Nd (Lf 0xBC00000) (Lf
  0xC000000)) (Nd (Lf 0xBC00000) (Lf 0xC000000))) (Nd (Nd (Lf 0xBC00000) (Lf 0xC000000)) (Nd (Lf 0xBC00000)
  (Lf 0xC000000)))))).
Definition up_36 : trie N :=
  (Nd (Nd (Nd (Nd (Nd (Lf 0xBC00000) (Lf 0xC000000)) (Nd (Lf 0xBC00000) (Lf 0xC000000))) (Nd (Nd (Lf
  0xBC00000) (Lf 0xC000000)) (Nd (Lf 0xBC00000) (Lf 0xC000000)))) (Nd (Nd (Nd (Lf 0xBC00000) (Lf 0xC000000))
  (Nd (Lf 0xBC00000) (Lf 0xC000000))) (Nd (Nd (Lf 0xBC00000) (Lf 0xC000000)) (Nd (Lf 0xBC00000) (Lf
  0xC000000))))) (Nd (Nd (Nd (Nd (Lf 0xBC00000) (Lf 0xC000000)) (Nd (Lf 0xBC00000) (Lf 0xC000000))) (Nd (Nd
  (Lf 0xBC00000) (Lf 0xC000000)) (Nd (Lf 0xBC00000) (Lf 0xC000000)))) (Nd (Nd (Nd (Lf 0xBC00000) (Lf
  0xC000000)) (Nd (Lf 0xBC00000) (Lf 0xC000000))) (Nd (Nd (Lf 0xBC00000) (Lf 0xC000000)) (Nd (Lf 0xBC00000)
  (Lf 0xC000000)))))).
Definition up_37 : trie N :=
  (Nd (Nd (Nd (Nd (Nd (Lf 0x21800000) (Lf 0xB4202B6)) (Nd (Lf 0xB8202B8) (Lf 0xBC00000))) (Nd (Nd (Lf
  0xC000000) (Lf 0xBC00000)) (Nd (Lf 0xC000000) (Lf 0xBC00000)))) (Nd (Nd (Nd (Lf 0xC000000) (Lf 0xBC00000))
  (Nd (Lf 0xC000000) (Lf 0xBC00000))) (Nd (Nd (Lf 0xC000000) (Lf 0xBC00000)) (Nd (Lf 0xC000000) (Lf
  0x14400000))))) (Nd (Nd (Nd (Nd (Lf 0xB4202BA) (Lf 0xB8202BC)) (Nd (Lf 0xB4202BE) (Lf 0xB8202C0))) (Nd (Nd
  (Lf 0xBC00000) (Lf 0xC000000)) (Nd (Lf 0xB4202C2) (Lf 0xB8202C4)))) (Nd (Nd (Nd (Lf 0xBC00000) (Lf
  0xC000000)) (Nd (Lf 0xB4202C6) (Lf 0xB8202C8))) (Nd (Nd (Lf 0xB4202CA) (Lf 0xB8202CC)) (Nd (Lf 0xB4202CE)
  (Lf 0xB8202D0)))))).
Definition up_38 : trie N :=
  (Nd (Nd (Nd (Nd (Nd (Lf 0xBC00000) (Lf 0xC000000)) (Nd (Lf 0xB4202D2) (Lf 0xB8202D4))) (Nd (Nd (Lf
  0xB4202D6) (Lf 0xB8202D8)) (Nd (Lf 0xB4202DA) (Lf 0xB8202DC)))) (Nd (Nd (Nd (Lf 0xBC00000) (Lf 0xC000000))
  (Nd (Lf 0xB4202DE) (Lf 0xB8202E0))) (Nd (Nd (Lf 0xB4202E2) (Lf 0xB8202E4)) (Nd (Lf 0xB4202E6) (Lf
  0xB8202E8))))) (Nd (Nd (Nd (Nd (Lf 0xB4202EA) (Lf 0xB8202EC)) (Nd (Lf 0xB4202EE) (Lf 0xB8202F0))) (Nd (Nd
  (Lf 0xB4202F2) (Lf 0xB8202F4)) (Nd (Lf 0x14400000) (Lf 0x14400000)))) (Nd (Nd (Nd (Lf 0xB4202F6) (Lf
  0xB8202F8)) (Nd (Lf 0x14400000) (Lf 0x14400000))) (Nd (Nd (Lf 0x14400000) (Lf 0x14400000)) (Nd (Lf
  0x14400000) (Lf 0x14400000)))))).
Definition up_39 : trie N :=
  (Nd (Nd (Nd (Nd (Nd (Lf 0xBC00000) (Lf 0xC000000)) (Nd (Lf 0xBC00000) (Lf 0xC000000))) (Nd (Nd (Lf
  0xBC00000) (Lf 0xC000000)) (Nd (Lf 0xBC00000) (Lf 0xC000000)))) (Nd (Nd (Nd (Lf 0xBC00000) (Lf 0xC000000))
  (Nd (Lf 0xBC00000) (Lf 0xC000000))) (Nd (Nd (Lf 0xBC00000) (Lf 0xC000000)) (Nd (Lf 0xBC00000) (Lf
  0xC000000))))) (Nd (Nd (Nd (Nd (Lf 0x14400000) (Lf 0x14400000)) (Nd (Lf 0x14400000) (Lf 0x14400000))) (Nd
  (Nd (Lf 0x14400000) (Lf 0x14400000)) (Nd (Lf 0x14400000) (Lf 0x14400000)))) (Nd (Nd (Nd (Lf 0x14400000) (Lf
  0x14400000)) (Nd (Lf 0x14400000) (Lf 0x14400000))) (Nd (Nd (Lf 0x14400000) (Lf 0x14400000)) (Nd (Lf
  0x14400000) (Lf 0x14400000)))))).
Definition up_40 : trie N :=
  (Nd (Nd (Nd (Nd (Nd (Lf 0x14400000) (Lf 0x14400000)) (Nd (Lf 0x14400000) (Lf 0x14400000))) (Nd (Nd (Lf
  0x14400000) (Lf 0x14400000)) (Nd (Lf 0x14400000) (Lf 0x14400000)))) (Nd (Nd (Nd (Lf 0x14400000) (Lf
  0x14400000)) (Nd (Lf 0x14400000) (Lf 0x14400000))) (Nd (Nd (Lf 0x14400000) (Lf 0x14400000)) (Nd (Lf
  0x14400000) (Lf 0x14400000))))) (Nd (Nd (Nd (Nd (Lf 0x14400000) (Lf 0x21C00000)) (Nd (Lf 0x21C00000) (Lf
  0x21C00000))) (Nd (Nd (Lf 0x21C00000) (Lf 0x21C00000)) (Nd (Lf 0x21C00000) (Lf 0x21C00000)))) (Nd (Nd (Nd
  (Lf 0x21C00000) (Lf 0x21C00000)) (Nd (Lf 0x21C00000) (Lf 0x21C00000))) (Nd (Nd (Lf 0x21C00000) (Lf
  0x21C00000)) (Nd (Lf 0x21C00000) (Lf 0x21C00000)))))).
Definition up_41 : trie N :=
  (Nd (Nd (Nd (Nd (Nd (Lf 0x21C00000) (Lf 0x21C00000)) (Nd (Lf 0x21C00000) (Lf 0x21C00000))) (Nd (Nd (Lf
  0x21C00000) (Lf 0x21C00000)) (Nd (Lf 0x21C00000) (Lf 0x21C00000)))) (Nd (Nd (Nd (Lf 0x21C00000) (Lf
  0x21C00000)) (Nd (Lf 0x21C00000) (Lf 0x21C00000))) (Nd (Nd (Lf 0x21C00000) (Lf 0x21C00000)) (Nd (Lf
  0x21C00000) (Lf 0x21C00000))))) (Nd (Nd (Nd (Nd (Lf 0x21C00000) (Lf 0x21C00000)) (Nd (Lf 0x21C00000) (Lf
  0x21C00000))) (Nd (Nd (Lf 0x21C00000) (Lf 0x21C00000)) (Nd (Lf 0x21C00000) (Lf 0x14400000)))) (Nd (Nd (Nd
  (Lf 0x14400000) (Lf 0x18400000)) (Nd (Lf 0x22000000) (Lf 0x22000000))) (Nd (Nd (Lf 0x22000000) (Lf
  0x22000000)) (Nd (Lf 0x22000000) (Lf 0x22000000)))))).
Definition up_42 : trie N :=
  (Nd (Nd (Nd (Nd (Nd (Lf 0x14400000) (Lf 0x22400000)) (Nd (Lf 0x22400000) (Lf 0x22400000))) (Nd (Nd (Lf
  0x22400000) (Lf 0x22400000)) (Nd (Lf 0x22400000) (Lf 0x22400000)))) (Nd (Nd (Nd (Lf 0x22400000) (Lf
  0x22400000)) (Nd (Lf 0x22400000) (Lf 0x22400000))) (Nd (Nd (Lf 0x22400000) (Lf 0x22400000)) (Nd (Lf
  0x22400000) (Lf 0x22400000))))) (Nd (Nd (Nd (Nd (Lf 0x22400000) (Lf 0x22400000)) (Nd (Lf 0x22400000) (Lf
  0x22400000))) (Nd (Nd (Lf 0x22400000) (Lf 0x22400000)) (Nd (Lf 0x22400000) (Lf 0x22400000)))) (Nd (Nd (Nd
  (Lf 0x22400000) (Lf 0x22400000)) (Nd (Lf 0x22400000) (Lf 0x22400000))) (Nd (Nd (Lf 0x22400000) (Lf
  0x22400000)) (Nd (Lf 0x22400000) (Lf 0x22400000)))))).
Definition up_43 : trie N :=
  (Nd (Nd (Nd (Nd (Nd (Lf 0x22400000) (Lf 0x22400000)) (Nd (Lf 0x22400000) (Lf 0x22400000))) (Nd (Nd (Lf
  0x22400000) (Lf 0x22400000)) (Nd (Lf 0x22400000) (Lf 0x7C202FA)))) (Nd (Nd (Nd (Lf 0x14400000) (Lf
  0x22800000)) (Nd (Lf 0x22C00000) (Lf 0x14400000))) (Nd (Nd (Lf 0x14400000) (Lf 0x14400000)) (Nd (Lf
  0x14400000) (Lf 0x14400000))))) (Nd (Nd (Nd (Nd (Lf 0x14400000) (Lf 0x19000000)) (Nd (Lf 0x19000000) (Lf
  0x19000000))) (Nd (Nd (Lf 0x19000000) (Lf 0x19000000)) (Nd (Lf 0x19000000) (Lf 0x19000000)))) (Nd (Nd (Nd
  (Lf 0x19000000) (Lf 0x19000000)) (Nd (Lf 0x19000000) (Lf 0x19000000))) (Nd (Nd (Lf 0x19000000) (Lf
  0x19000000)) (Nd (Lf 0x19000000) (Lf 0x19000000)))))).
Definition up_44 : trie N :=
  (Nd (Nd (Nd (Nd (Nd (Lf 0x19000000) (Lf 0x19000000)) (Nd (Lf 0x14400000) (Lf 0x19000000))) (Nd (Nd (Lf
  0x19000000) (Lf 0x19000000)) (Nd (Lf 0x19000000) (Lf 0x19000000)))) (Nd (Nd (Nd (Lf 0x19000000) (Lf
  0x19000000)) (Nd (Lf 0x19000000) (Lf 0x19000000))) (Nd (Nd (Lf 0x19000000) (Lf 0x19000000)) (Nd (Lf
  0x19000000) (Lf 0x19000000))))) (Nd (Nd (Nd (Nd (Lf 0x19000000) (Lf 0x19000000)) (Nd (Lf 0x19000000) (Lf
  0x19000000))) (Nd (Nd (Lf 0x19000000) (Lf 0x19000000)) (Nd (Lf 0x19000000) (Lf 0x19000000)))) (Nd (Nd (Nd
  (Lf 0x19000000) (Lf 0x19000000)) (Nd (Lf 0x14400000) (Lf 0x19000000))) (Nd (Nd (Lf 0x19000000) (Lf
  0x19000000)) (Nd (Lf 0x23000000) (Lf 0x19000000)))))).
Definition up_45 : trie N :=
  (Nd (Nd (Nd (Nd (Nd (Lf 0x23000000) (Lf 0x19000000)) (Nd (Lf 0x19000000) (Lf 0x23000000))) (Nd (Nd (Lf
  0x19000000) (Lf 0x14400000)) (Nd (Lf 0x14400000) (Lf 0x14400000)))) (Nd (Nd (Nd (Lf 0x14400000) (Lf
  0x14400000)) (Nd (Lf 0x14400000) (Lf 0x14400000))) (Nd (Nd (Lf 0x14400000) (Lf 0x14400000)) (Nd (Lf
  0x14400000) (Lf 0x14400000))))) (Nd (Nd (Nd (Nd (Lf 0x23400000) (Lf 0x23400000)) (Nd (Lf 0x23400000) (Lf
  0x23400000))) (Nd (Nd (Lf 0x23400000) (Lf 0x23400000)) (Nd (Lf 0x23400000) (Lf 0x23400000)))) (Nd (Nd (Nd
  (Lf 0x23400000) (Lf 0x23400000)) (Nd (Lf 0x23400000) (Lf 0x23400000))) (Nd (Nd (Lf 0x23400000) (Lf
  0x23400000)) (Nd (Lf 0x23400000) (Lf 0x23400000)))))).
Definition up_46 : trie N :=
  (Nd (Nd (Nd (Nd (Nd (Lf 0x23400000) (Lf 0x23400000)) (Nd (Lf 0x23400000) (Lf 0x23400000))) (Nd (Nd (Lf
  0x23400000) (Lf 0x23400000)) (Nd (Lf 0x23400000) (Lf 0x23400000)))) (Nd (Nd (Nd (Lf 0x23400000) (Lf
  0x23400000)) (Nd (Lf 0x23400000) (Lf 0x14400000))) (Nd (Nd (Lf 0x14400000) (Lf 0x14400000)) (Nd (Lf
  0x14400000) (Lf 0x14400000))))) (Nd (Nd (Nd (Nd (Lf 0x23400000) (Lf 0x23400000)) (Nd (Lf 0x23400000) (Lf
  0x23000000))) (Nd (Nd (Lf 0x23000000) (Lf 0x14400000)) (Nd (Lf 0x14400000) (Lf 0x14400000)))) (Nd (Nd (Nd
  (Lf 0x14400000) (Lf 0x14400000)) (Nd (Lf 0x14400000) (Lf 0x14400000))) (Nd (Nd (Lf 0x14400000) (Lf
  0x14400000)) (Nd (Lf 0x14400000) (Lf 0x14400000)))))).
Definition up_47 : trie N :=
  (Nd (Nd (Nd (Nd (Nd (Lf 0x23800000) (Lf 0x23800000)) (Nd (Lf 0x23800000) (Lf 0x23800000))) (Nd (Nd (Lf
  0x14400000) (Lf 0x14400000)) (Nd (Lf 0x14400000) (Lf 0x14400000)))) (Nd (Nd (Nd (Lf 0x14400000) (Lf
  0x14400000)) (Nd (Lf 0x14400000) (Lf 0x14400000))) (Nd (Nd (Lf 0x3C00000) (Lf 0x23C00000)) (Nd (Lf
  0x7400000) (Lf 0x7400000))))) (Nd (Nd (Nd (Nd (Lf 0x19000000) (Lf 0x19000000)) (Nd (Lf 0x19000000) (Lf
  0x19000000))) (Nd (Nd (Lf 0x19000000) (Lf 0x19000000)) (Nd (Lf 0x14400000) (Lf 0x14400000)))) (Nd (Nd (Nd
  (Lf 0x14400000) (Lf 0x14400000)) (Nd (Lf 0x14400000) (Lf 0x24000000))) (Nd (Nd (Lf 0x14400000) (Lf
  0x14400000)) (Nd (Lf 0x14400000) (Lf 0x24000000)))))).
Definition up_48 : trie N :=
  (Nd (Nd (Nd (Nd (Nd (Lf 0x14400000) (Lf 0x24400000)) (Nd (Lf 0x248202FC) (Lf 0x248202FE))) (Nd (Nd (Lf
  0x24820300) (Lf 0x24820302)) (Nd (Lf 0x24820304) (Lf 0x24400000)))) (Nd (Nd (Nd (Lf 0x24400000) (Lf
  0x24400000)) (Nd (Lf 0x24400000) (Lf 0x24400000))) (Nd (Nd (Lf 0x24400000) (Lf 0x24400000)) (Nd (Lf
  0x24400000) (Lf 0x24400000))))) (Nd (Nd (Nd (Nd (Lf 0x24400000) (Lf 0x24400000)) (Nd (Lf 0x24400000) (Lf
  0x24400000))) (Nd (Nd (Lf 0x24400000) (Lf 0x24400000)) (Nd (Lf 0x24400000) (Lf 0x24400000)))) (Nd (Nd (Nd
  (Lf 0x24400000) (Lf 0x24400000)) (Nd (Lf 0x24400000) (Lf 0x14400000))) (Nd (Nd (Lf 0x14400000) (Lf
  0x14400000)) (Nd (Lf 0x14400000) (Lf 0x14400000)))))).
Definition up_49 : trie N :=
  (Nd (Nd (Nd (Nd (Nd (Lf 0x24C00000) (Lf 0x24400000)) (Nd (Lf 0x24400000) (Lf 0x24400000))) (Nd (Nd (Lf
  0x24400000) (Lf 0x24400000)) (Nd (Lf 0x24400000) (Lf 0x24400000)))) (Nd (Nd (Nd (Lf 0x24400000) (Lf
  0x24400000)) (Nd (Lf 0x24400000) (Lf 0x19000000))) (Nd (Nd (Lf 0x19000000) (Lf 0x19000000)) (Nd (Lf
  0x19000000) (Lf 0x19000000))))) (Nd (Nd (Nd (Nd (Lf 0x19000000) (Lf 0x19000000)) (Nd (Lf 0x19000000) (Lf
  0x19000000))) (Nd (Nd (Lf 0x19000000) (Lf 0x19000000)) (Nd (Lf 0x19000000) (Lf 0x19000000)))) (Nd (Nd (Nd
  (Lf 0x19000000) (Lf 0x14400000)) (Nd (Lf 0x14400000) (Lf 0x14400000))) (Nd (Nd (Lf 0x14400000) (Lf
  0x14400000)) (Nd (Lf 0x14400000) (Lf 0x14400000)))))).
Definition up_50 : trie N :=
  (Nd (Nd (Nd (Nd (Nd (Lf 0x25000000) (Lf 0x25400000)) (Nd (Lf 0x25400000) (Lf 0x25400000))) (Nd (Nd (Lf
  0x25400000) (Lf 0x25400000)) (Nd (Lf 0x25400000) (Lf 0x25400000)))) (Nd (Nd (Nd (Lf 0x25400000) (Lf
  0x25400000)) (Nd (Lf 0x2000000) (Lf 0x25800000))) (Nd (Nd (Lf 0x25800000) (Lf 0x23C00000)) (Nd (Lf
  0x24400000) (Lf 0x24400000))))) (Nd (Nd (Nd (Nd (Lf 0x19000000) (Lf 0x24400000)) (Nd (Lf 0x24400000) (Lf
  0x24400000))) (Nd (Nd (Lf 0x24400000) (Lf 0x25C20306)) (Nd (Lf 0x25C20308) (Lf 0x25C2030A)))) (Nd (Nd (Nd
  (Lf 0x25C2030C) (Lf 0x24400000)) (Nd (Lf 0x24400000) (Lf 0x24400000))) (Nd (Nd (Lf 0x24400000) (Lf
  0x24400000)) (Nd (Lf 0x24400000) (Lf 0x24400000)))))).
Definition up_51 : trie N :=
  (Nd (Nd (Nd (Nd (Nd (Lf 0x24400000) (Lf 0x24400000)) (Nd (Lf 0x24400000) (Lf 0x24400000))) (Nd (Nd (Lf
  0x24400000) (Lf 0x24400000)) (Nd (Lf 0x24400000) (Lf 0x24400000)))) (Nd (Nd (Nd (Lf 0x24400000) (Lf
  0x24400000)) (Nd (Lf 0x24400000) (Lf 0x24400000))) (Nd (Nd (Lf 0x24400000) (Lf 0x24400000)) (Nd (Lf
  0x24400000) (Lf 0x24400000))))) (Nd (Nd (Nd (Nd (Lf 0x24400000) (Lf 0x24400000)) (Nd (Lf 0x24400000) (Lf
  0x24400000))) (Nd (Nd (Lf 0x24400000) (Lf 0x24400000)) (Nd (Lf 0x24400000) (Lf 0x24400000)))) (Nd (Nd (Nd
  (Lf 0x24400000) (Lf 0x24400000)) (Nd (Lf 0x24400000) (Lf 0x24400000))) (Nd (Nd (Lf 0x24400000) (Lf
  0x24400000)) (Nd (Lf 0x24400000) (Lf 0x24400000)))))).
Definition up_52 : trie N :=
  (Nd (Nd (Nd (Nd (Nd (Lf 0x2482030E) (Lf 0x24400000)) (Nd (Lf 0x24820310) (Lf 0x24400000))) (Nd (Nd (Lf
  0x24400000) (Lf 0x24400000)) (Nd (Lf 0x24400000) (Lf 0x24400000)))) (Nd (Nd (Nd (Lf 0x24400000) (Lf
  0x24400000)) (Nd (Lf 0x24400000) (Lf 0x24400000))) (Nd (Nd (Lf 0x24400000) (Lf 0x24400000)) (Nd (Lf
  0x24400000) (Lf 0x24400000))))) (Nd (Nd (Nd (Nd (Lf 0x24400000) (Lf 0x24400000)) (Nd (Lf 0x24400000) (Lf
  0x24820312))) (Nd (Nd (Lf 0x24000000) (Lf 0x24400000)) (Nd (Lf 0x19000000) (Lf 0x19000000)))) (Nd (Nd (Nd
  (Lf 0x19000000) (Lf 0x19000000)) (Nd (Lf 0x19000000) (Lf 0x19000000))) (Nd (Nd (Lf 0x19000000) (Lf
  0x23800000)) (Nd (Lf 0x21400000) (Lf 0x19000000)))))).
Definition up_53 : trie N :=
  (Nd (Nd (Nd (Nd (Nd (Lf 0x19000000) (Lf 0x19000000)) (Nd (Lf 0x19000000) (Lf 0x19000000))) (Nd (Nd (Lf
  0x19000000) (Lf 0x26000000)) (Nd (Lf 0x26000000) (Lf 0x19000000)))) (Nd (Nd (Nd (Lf 0x19000000) (Lf
  0x7400000)) (Nd (Lf 0x19000000) (Lf 0x19000000))) (Nd (Nd (Lf 0x19000000) (Lf 0x19000000)) (Nd (Lf
  0x24400000) (Lf 0x24400000))))) (Nd (Nd (Nd (Nd (Lf 0x26400000) (Lf 0x26800000)) (Nd (Lf 0x26800000) (Lf
  0x26800000))) (Nd (Nd (Lf 0x26800000) (Lf 0x26800000)) (Nd (Lf 0x26800000) (Lf 0x26800000)))) (Nd (Nd (Nd
  (Lf 0x26800000) (Lf 0x26800000)) (Nd (Lf 0x24400000) (Lf 0x24400000))) (Nd (Nd (Lf 0x24400000) (Lf
  0x26C00000)) (Nd (Lf 0x26C00000) (Lf 0x24400000)))))).
Definition up_54 : trie N :=
  (Nd (Nd (Nd (Nd (Nd (Lf 0x23C00000) (Lf 0x24000000)) (Nd (Lf 0x24000000) (Lf 0x24000000))) (Nd (Nd (Lf
  0x24000000) (Lf 0x24000000)) (Nd (Lf 0x24000000) (Lf 0x24000000)))) (Nd (Nd (Nd (Lf 0x24000000) (Lf
  0x24000000)) (Nd (Lf 0x23C00000) (Lf 0x23C00000))) (Nd (Nd (Lf 0x23C00000) (Lf 0x23C00000)) (Nd (Lf
  0x14400000) (Lf 0x23800000))))) (Nd (Nd (Nd (Nd (Lf 0x27000000) (Lf 0x19000000)) (Nd (Lf 0x27000000) (Lf
  0x27000000))) (Nd (Nd (Lf 0x27000000) (Lf 0x27000000)) (Nd (Lf 0x27000000) (Lf 0x27000000)))) (Nd (Nd (Nd
  (Lf 0x27000000) (Lf 0x27000000)) (Nd (Lf 0x27000000) (Lf 0x27000000))) (Nd (Nd (Lf 0x27000000) (Lf
  0x27000000)) (Nd (Lf 0x27000000) (Lf 0x27000000)))))).
Definition up_55 : trie N :=
  (Nd (Nd (Nd (Nd (Nd (Lf 0x27000000) (Lf 0x27000000)) (Nd (Lf 0x27000000) (Lf 0x27000000))) (Nd (Nd (Lf
  0x27000000) (Lf 0x27000000)) (Nd (Lf 0x27000000) (Lf 0x27000000)))) (Nd (Nd (Nd (Lf 0x27000000) (Lf
  0x27000000)) (Nd (Lf 0x27000000) (Lf 0x27000000))) (Nd (Nd (Lf 0x27000000) (Lf 0x27000000)) (Nd (Lf
  0x27000000) (Lf 0x27000000))))) (Nd (Nd (Nd (Nd (Lf 0x19000000) (Lf 0x19000000)) (Nd (Lf 0x19000000) (Lf
  0x19000000))) (Nd (Nd (Lf 0x19000000) (Lf 0x19000000)) (Nd (Lf 0x19000000) (Lf 0x19000000)))) (Nd (Nd (Nd
  (Lf 0x19000000) (Lf 0x19000000)) (Nd (Lf 0x19000000) (Lf 0x19000000))) (Nd (Nd (Lf 0x19000000) (Lf
  0x19000000)) (Nd (Lf 0x19000000) (Lf 0x19000000)))))).
Definition up_56 : trie N :=
  (Nd (Nd (Nd (Nd (Nd (Lf 0x19000000) (Lf 0x19000000)) (Nd (Lf 0x19000000) (Lf 0x19000000))) (Nd (Nd (Lf
  0x19000000) (Lf 0x19000000)) (Nd (Lf 0x19000000) (Lf 0x19000000)))) (Nd (Nd (Nd (Lf 0x19000000) (Lf
  0x19000000)) (Nd (Lf 0x19000000) (Lf 0x14400000))) (Nd (Nd (Lf 0x14400000) (Lf 0x27000000)) (Nd (Lf
  0x27000000) (Lf 0x27000000))))) (Nd (Nd (Nd (Nd (Lf 0x14400000) (Lf 0x14400000)) (Nd (Lf 0x14400000) (Lf
  0x14400000))) (Nd (Nd (Lf 0x14400000) (Lf 0x14400000)) (Nd (Lf 0x14400000) (Lf 0x14400000)))) (Nd (Nd (Nd
  (Lf 0x14400000) (Lf 0x14400000)) (Nd (Lf 0x14400000) (Lf 0x14400000))) (Nd (Nd (Lf 0x14400000) (Lf
  0x14400000)) (Nd (Lf 0x14400000) (Lf 0x14400000)))))).
Definition up_57 : trie N :=
  (Nd (Nd (Nd (Nd (Nd (Lf 0x14400000) (Lf 0x14400000)) (Nd (Lf 0x14400000) (Lf 0x14400000))) (Nd (Nd (Lf
  0x14400000) (Lf 0x14400000)) (Nd (Lf 0x14400000) (Lf 0x14400000)))) (Nd (Nd (Nd (Lf 0x14400000) (Lf
  0x14400000)) (Nd (Lf 0x14400000) (Lf 0x14400000))) (Nd (Nd (Lf 0x14400000) (Lf 0x14400000)) (Nd (Lf
  0x14400000) (Lf 0x14400000))))) (Nd (Nd (Nd (Nd (Lf 0x14400000) (Lf 0x14400000)) (Nd (Lf 0x14400000) (Lf
  0x14400000))) (Nd (Nd (Lf 0x14400000) (Lf 0x14400000)) (Nd (Lf 0x14400000) (Lf 0x14400000)))) (Nd (Nd (Nd
  (Lf 0x14400000) (Lf 0x14400000)) (Nd (Lf 0x14400000) (Lf 0x14400000))) (Nd (Nd (Lf 0x14400000) (Lf
  0x14400000)) (Nd (Lf 0x14400000) (Lf 0x14400000)))))).
Definition up_58 : trie N :=
  (Nd (Nd (Nd (Nd (Nd (Lf 0x27000000) (Lf 0x27000000)) (Nd (Lf 0x27000000) (Lf 0x27000000))) (Nd (Nd (Lf
  0x27000000) (Lf 0x27000000)) (Nd (Lf 0x27000000) (Lf 0x27000000)))) (Nd (Nd (Nd (Lf 0x27000000) (Lf
  0x27000000)) (Nd (Lf 0x27000000) (Lf 0x27000000))) (Nd (Nd (Lf 0x27000000) (Lf 0x27000000)) (Nd (Lf
  0x27000000) (Lf 0x27000000))))) (Nd (Nd (Nd (Nd (Lf 0x27000000) (Lf 0x27000000)) (Nd (Lf 0x27000000) (Lf
  0x27000000))) (Nd (Nd (Lf 0x27000000) (Lf 0x27000000)) (Nd (Lf 0x27000000) (Lf 0x27000000)))) (Nd (Nd (Nd
  (Lf 0x27000000) (Lf 0x27000000)) (Nd (Lf 0x27000000) (Lf 0x27000000))) (Nd (Nd (Lf 0x27000000) (Lf
  0x27000000)) (Nd (Lf 0x27000000) (Lf 0x27000000)))))).
Definition up_59 : trie N :=
  (Nd (Nd (Nd (Nd (Nd (Lf 0x27000000) (Lf 0x27000000)) (Nd (Lf 0x27000000) (Lf 0x27000000))) (Nd (Nd (Lf
  0x27000000) (Lf 0x27000000)) (Nd (Lf 0x19C00000) (Lf 0x19C00000)))) (Nd (Nd (Nd (Lf 0x19C00000) (Lf
  0x19C00000)) (Nd (Lf 0x19C00000) (Lf 0x19C00000))) (Nd (Nd (Lf 0x19C00000) (Lf 0x19C00000)) (Nd (Lf
  0x19C00000) (Lf 0x19C00000))))) (Nd (Nd (Nd (Nd (Lf 0x19C00000) (Lf 0x27000000)) (Nd (Lf 0x14400000) (Lf
  0x14400000))) (Nd (Nd (Lf 0x14400000) (Lf 0x14400000)) (Nd (Lf 0x14400000) (Lf 0x14400000)))) (Nd (Nd (Nd
  (Lf 0x14400000) (Lf 0x14400000)) (Nd (Lf 0x14400000) (Lf 0x14400000))) (Nd (Nd (Lf 0x14400000) (Lf
  0x14400000)) (Nd (Lf 0x14400000) (Lf 0x14400000)))))).
Definition up_60 : trie N :=
  (Nd (Nd (Nd (Nd (Nd (Lf 0x14400000) (Lf 0x19C00000)) (Nd (Lf 0x19C00000) (Lf 0x27400000))) (Nd (Nd (Lf
  0x11C00000) (Lf 0x11C00000)) (Nd (Lf 0x11C00000) (Lf 0x11C00000)))) (Nd (Nd (Nd (Lf 0x11C00000) (Lf
  0x11C00000)) (Nd (Lf 0x11C00000) (Lf 0x11C00000))) (Nd (Nd (Lf 0x11C00000) (Lf 0x11C00000)) (Nd (Lf
  0x11C00000) (Lf 0x11C00000))))) (Nd (Nd (Nd (Nd (Lf 0x11C00000) (Lf 0x11C00000)) (Nd (Lf 0x11C00000) (Lf
  0x11C00000))) (Nd (Nd (Lf 0x11C00000) (Lf 0x11C00000)) (Nd (Lf 0x11C00000) (Lf 0x11C00000)))) (Nd (Nd (Nd
  (Lf 0x11C00000) (Lf 0x11C00000)) (Nd (Lf 0x11C00000) (Lf 0x11C00000))) (Nd (Nd (Lf 0x11C00000) (Lf
  0x11C00000)) (Nd (Lf 0x11C00000) (Lf 0x11C00000)))))).
Definition up_61 : trie N :=
  (Nd (Nd (Nd (Nd (Nd (Lf 0x11C00000) (Lf 0x11C00000)) (Nd (Lf 0x11C00000) (Lf 0x11C00000))) (Nd (Nd (Lf
  0x11C00000) (Lf 0x11C00000)) (Nd (Lf 0x11C00000) (Lf 0x11C00000)))) (Nd (Nd (Nd (Lf 0x11C00000) (Lf
  0x27820314)) (Nd (Lf 0x11C00000) (Lf 0x11C00000))) (Nd (Nd (Lf 0x11C00000) (Lf 0x11C00000)) (Nd (Lf
  0x11C00000) (Lf 0x11C00000))))) (Nd (Nd (Nd (Nd (Lf 0x11C00000) (Lf 0x27820316)) (Nd (Lf 0x11C00000) (Lf
  0x11C00000))) (Nd (Nd (Lf 0x27820318) (Lf 0x11C00000)) (Nd (Lf 0x11C00000) (Lf 0x11C00000)))) (Nd (Nd (Nd
  (Lf 0x11C00000) (Lf 0x11C00000)) (Nd (Lf 0x14400000) (Lf 0x14400000))) (Nd (Nd (Lf 0x19000000) (Lf
  0x11C00000)) (Nd (Lf 0x27400000) (Lf 0x27400000)))))).
Definition up_62 : trie N :=
  (Nd (Nd (Nd (Nd (Nd (Lf 0x27400000) (Lf 0x19C00000)) (Nd (Lf 0x19C00000) (Lf 0x19C00000))) (Nd (Nd (Lf
  0x19C00000) (Lf 0x19C00000)) (Nd (Lf 0x19C00000) (Lf 0x19C00000)))) (Nd (Nd (Nd (Lf 0x19C00000) (Lf
  0x27400000)) (Nd (Lf 0x27400000) (Lf 0x27400000))) (Nd (Nd (Lf 0x27400000) (Lf 0x19000000)) (Nd (Lf
  0x14400000) (Lf 0x14400000))))) (Nd (Nd (Nd (Nd (Lf 0x11C00000) (Lf 0x19000000)) (Nd (Lf 0x19000000) (Lf
  0x19000000))) (Nd (Nd (Lf 0x19000000) (Lf 0x14400000)) (Nd (Lf 0x14400000) (Lf 0x14400000)))) (Nd (Nd (Nd
  (Lf 0x2782031A) (Lf 0x2782031C)) (Nd (Lf 0x2782031E) (Lf 0x27820320))) (Nd (Nd (Lf 0x27820322) (Lf
  0x27820324)) (Nd (Lf 0x27820326) (Lf 0x27820328)))))).
Definition up_63 : trie N :=
  (Nd (Nd (Nd (Nd (Nd (Lf 0x11C00000) (Lf 0x11C00000)) (Nd (Lf 0x19C00000) (Lf 0x19C00000))) (Nd (Nd (Lf
  0x22800000) (Lf 0x22800000)) (Nd (Lf 0x27C00000) (Lf 0x28000000)))) (Nd (Nd (Nd (Lf 0x28000000) (Lf
  0x28000000)) (Nd (Lf 0x28000000) (Lf 0x28000000))) (Nd (Nd (Lf 0x28000000) (Lf 0x28000000)) (Nd (Lf
  0x28000000) (Lf 0x28000000))))) (Nd (Nd (Nd (Nd (Lf 0x22000000) (Lf 0x14400000)) (Nd (Lf 0x14400000) (Lf
  0x14400000))) (Nd (Nd (Lf 0x14400000) (Lf 0x14400000)) (Nd (Lf 0x14400000) (Lf 0x14400000)))) (Nd (Nd (Nd
  (Lf 0x14400000) (Lf 0x14400000)) (Nd (Lf 0x14400000) (Lf 0x14400000))) (Nd (Nd (Lf 0x14400000) (Lf
  0x14400000)) (Nd (Lf 0x14400000) (Lf 0x14400000)))))).
Definition up_64 : trie N :=
  (Nd (Nd (Nd (Nd (Nd (Lf 0x14400000) (Lf 0x19C00000)) (Nd (Lf 0x27400000) (Lf 0x27400000))) (Nd (Nd (Lf
  0x14400000) (Lf 0x11C00000)) (Nd (Lf 0x11C00000) (Lf 0x11C00000)))) (Nd (Nd (Nd (Lf 0x11C00000) (Lf
  0x11C00000)) (Nd (Lf 0x11C00000) (Lf 0x11C00000))) (Nd (Nd (Lf 0x11C00000) (Lf 0x14400000)) (Nd (Lf
  0x14400000) (Lf 0x11C00000))))) (Nd (Nd (Nd (Nd (Lf 0x11C00000) (Lf 0x14400000)) (Nd (Lf 0x14400000) (Lf
  0x11C00000))) (Nd (Nd (Lf 0x11C00000) (Lf 0x11C00000)) (Nd (Lf 0x11C00000) (Lf 0x11C00000)))) (Nd (Nd (Nd
  (Lf 0x11C00000) (Lf 0x11C00000)) (Nd (Lf 0x11C00000) (Lf 0x11C00000))) (Nd (Nd (Lf 0x11C00000) (Lf
  0x11C00000)) (Nd (Lf 0x11C00000) (Lf 0x11C00000)))))).
Definition up_65 : trie N :=
  (Nd (Nd (Nd (Nd (Nd (Lf 0x11C00000) (Lf 0x11C00000)) (Nd (Lf 0x11C00000) (Lf 0x11C00000))) (Nd (Nd (Lf
  0x11C00000) (Lf 0x11C00000)) (Nd (Lf 0x11C00000) (Lf 0x11C00000)))) (Nd (Nd (Nd (Lf 0x11C00000) (Lf
  0x14400000)) (Nd (Lf 0x11C00000) (Lf 0x11C00000))) (Nd (Nd (Lf 0x11C00000) (Lf 0x11C00000)) (Nd (Lf
  0x11C00000) (Lf 0x11C00000))))) (Nd (Nd (Nd (Nd (Lf 0x11C00000) (Lf 0x14400000)) (Nd (Lf 0x11C00000) (Lf
  0x14400000))) (Nd (Nd (Lf 0x14400000) (Lf 0x14400000)) (Nd (Lf 0x11C00000) (Lf 0x11C00000)))) (Nd (Nd (Nd
  (Lf 0x11C00000) (Lf 0x11C00000)) (Nd (Lf 0x14400000) (Lf 0x14400000))) (Nd (Nd (Lf 0x19000000) (Lf
  0x11C00000)) (Nd (Lf 0x27400000) (Lf 0x27400000)))))).
Definition up_66 : trie N :=
  (Nd (Nd (Nd (Nd (Nd (Lf 0x27400000) (Lf 0x19C00000)) (Nd (Lf 0x19C00000) (Lf 0x19C00000))) (Nd (Nd (Lf
  0x19C00000) (Lf 0x14400000)) (Nd (Lf 0x14400000) (Lf 0x27400000)))) (Nd (Nd (Nd (Lf 0x27400000) (Lf
  0x14400000)) (Nd (Lf 0x14400000) (Lf 0x2842032A))) (Nd (Nd (Lf 0x2842032C) (Lf 0x19000000)) (Nd (Lf
  0x14400000) (Lf 0x14400000))))) (Nd (Nd (Nd (Nd (Lf 0x14400000) (Lf 0x14400000)) (Nd (Lf 0x14400000) (Lf
  0x14400000))) (Nd (Nd (Lf 0x14400000) (Lf 0x14400000)) (Nd (Lf 0x14400000) (Lf 0x27400000)))) (Nd (Nd (Nd
  (Lf 0x14400000) (Lf 0x14400000)) (Nd (Lf 0x14400000) (Lf 0x14400000))) (Nd (Nd (Lf 0x2782032E) (Lf
  0x27820330)) (Nd (Lf 0x14400000) (Lf 0x27820332)))))).
Definition up_67 : trie N :=
  (Nd (Nd (Nd (Nd (Nd (Lf 0x11C00000) (Lf 0x11C00000)) (Nd (Lf 0x19C00000) (Lf 0x19C00000))) (Nd (Nd (Lf
  0x14400000) (Lf 0x14400000)) (Nd (Lf 0x27C00000) (Lf 0x28000000)))) (Nd (Nd (Nd (Lf 0x28000000) (Lf
  0x28000000)) (Nd (Lf 0x28000000) (Lf 0x28000000))) (Nd (Nd (Lf 0x28000000) (Lf 0x28000000)) (Nd (Lf
  0x28000000) (Lf 0x28000000))))) (Nd (Nd (Nd (Nd (Lf 0x11C00000) (Lf 0x11C00000)) (Nd (Lf 0x2400000) (Lf
  0x2400000))) (Nd (Nd (Lf 0x28800000) (Lf 0x28800000)) (Nd (Lf 0x28800000) (Lf 0x28800000)))) (Nd (Nd (Nd (Lf
  0x28800000) (Lf 0x28800000)) (Nd (Lf 0x21000000) (Lf 0x14400000))) (Nd (Nd (Lf 0x14400000) (Lf 0x14400000))
  (Nd (Lf 0x14400000) (Lf 0x14400000)))))).
Definition up_68 : trie N :=
  (Nd (Nd (Nd (Nd (Nd (Lf 0x14400000) (Lf 0x19C00000)) (Nd (Lf 0x19C00000) (Lf 0x27400000))) (Nd (Nd (Lf
  0x14400000) (Lf 0x11C00000)) (Nd (Lf 0x11C00000) (Lf 0x11C00000)))) (Nd (Nd (Nd (Lf 0x11C00000) (Lf
  0x11C00000)) (Nd (Lf 0x11C00000) (Lf 0x14400000))) (Nd (Nd (Lf 0x14400000) (Lf 0x14400000)) (Nd (Lf
  0x14400000) (Lf 0x11C00000))))) (Nd (Nd (Nd (Nd (Lf 0x11C00000) (Lf 0x14400000)) (Nd (Lf 0x14400000) (Lf
  0x11C00000))) (Nd (Nd (Lf 0x11C00000) (Lf 0x11C00000)) (Nd (Lf 0x11C00000) (Lf 0x11C00000)))) (Nd (Nd (Nd
  (Lf 0x11C00000) (Lf 0x11C00000)) (Nd (Lf 0x11C00000) (Lf 0x11C00000))) (Nd (Nd (Lf 0x11C00000) (Lf
  0x11C00000)) (Nd (Lf 0x11C00000) (Lf 0x11C00000)))))).
Definition up_69 : trie N :=
  (Nd (Nd (Nd (Nd (Nd (Lf 0x11C00000) (Lf 0x11C00000)) (Nd (Lf 0x11C00000) (Lf 0x11C00000))) (Nd (Nd (Lf
  0x11C00000) (Lf 0x11C00000)) (Nd (Lf 0x11C00000) (Lf 0x11C00000)))) (Nd (Nd (Nd (Lf 0x11C00000) (Lf
  0x14400000)) (Nd (Lf 0x11C00000) (Lf 0x11C00000))) (Nd (Nd (Lf 0x11C00000) (Lf 0x11C00000)) (Nd (Lf
  0x11C00000) (Lf 0x11C00000))))) (Nd (Nd (Nd (Nd (Lf 0x11C00000) (Lf 0x14400000)) (Nd (Lf 0x11C00000) (Lf
  0x27820334))) (Nd (Nd (Lf 0x14400000) (Lf 0x11C00000)) (Nd (Lf 0x27820336) (Lf 0x14400000)))) (Nd (Nd (Nd
  (Lf 0x11C00000) (Lf 0x11C00000)) (Nd (Lf 0x14400000) (Lf 0x14400000))) (Nd (Nd (Lf 0x19000000) (Lf
  0x14400000)) (Nd (Lf 0x27400000) (Lf 0x27400000)))))).
Definition up_70 : trie N :=
  (Nd (Nd (Nd (Nd (Nd (Lf 0x27400000) (Lf 0x19C00000)) (Nd (Lf 0x19C00000) (Lf 0x14400000))) (Nd (Nd (Lf
  0x14400000) (Lf 0x14400000)) (Nd (Lf 0x14400000) (Lf 0x19C00000)))) (Nd (Nd (Nd (Lf 0x19C00000) (Lf
  0x14400000)) (Nd (Lf 0x14400000) (Lf 0x19C00000))) (Nd (Nd (Lf 0x19C00000) (Lf 0x19000000)) (Nd (Lf
  0x14400000) (Lf 0x14400000))))) (Nd (Nd (Nd (Nd (Lf 0x14400000) (Lf 0x14400000)) (Nd (Lf 0x14400000) (Lf
  0x14400000))) (Nd (Nd (Lf 0x14400000) (Lf 0x14400000)) (Nd (Lf 0x14400000) (Lf 0x14400000)))) (Nd (Nd (Nd
  (Lf 0x14400000) (Lf 0x27820338)) (Nd (Lf 0x2782033A) (Lf 0x2782033C))) (Nd (Nd (Lf 0x11C00000) (Lf
  0x14400000)) (Nd (Lf 0x2782033E) (Lf 0x14400000)))))).
Definition up_71 : trie N :=
  (Nd (Nd (Nd (Nd (Nd (Lf 0x14400000) (Lf 0x14400000)) (Nd (Lf 0x14400000) (Lf 0x14400000))) (Nd (Nd (Lf
  0x14400000) (Lf 0x14400000)) (Nd (Lf 0x27C00000) (Lf 0x28000000)))) (Nd (Nd (Nd (Lf 0x28000000) (Lf
  0x28000000)) (Nd (Lf 0x28000000) (Lf 0x28000000))) (Nd (Nd (Lf 0x28000000) (Lf 0x28000000)) (Nd (Lf
  0x28000000) (Lf 0x28000000))))) (Nd (Nd (Nd (Nd (Lf 0x19C00000) (Lf 0x19C00000)) (Nd (Lf 0x11C00000) (Lf
  0x11C00000))) (Nd (Nd (Lf 0x11C00000) (Lf 0x14400000)) (Nd (Lf 0x14400000) (Lf 0x14400000)))) (Nd (Nd (Nd
  (Lf 0x14400000) (Lf 0x14400000)) (Nd (Lf 0x14400000) (Lf 0x14400000))) (Nd (Nd (Lf 0x14400000) (Lf
  0x14400000)) (Nd (Lf 0x14400000) (Lf 0x14400000)))))).
Definition up_72 : trie N :=
  (Nd (Nd (Nd (Nd (Nd (Lf 0x14400000) (Lf 0x19C00000)) (Nd (Lf 0x19C00000) (Lf 0x27400000))) (Nd (Nd (Lf
  0x14400000) (Lf 0x11C00000)) (Nd (Lf 0x11C00000) (Lf 0x11C00000)))) (Nd (Nd (Nd (Lf 0x11C00000) (Lf
  0x11C00000)) (Nd (Lf 0x11C00000) (Lf 0x11C00000))) (Nd (Nd (Lf 0x11C00000) (Lf 0x11C00000)) (Nd (Lf
  0x14400000) (Lf 0x11C00000))))) (Nd (Nd (Nd (Nd (Lf 0x11C00000) (Lf 0x11C00000)) (Nd (Lf 0x14400000) (Lf
  0x11C00000))) (Nd (Nd (Lf 0x11C00000) (Lf 0x11C00000)) (Nd (Lf 0x11C00000) (Lf 0x11C00000)))) (Nd (Nd (Nd
  (Lf 0x11C00000) (Lf 0x11C00000)) (Nd (Lf 0x11C00000) (Lf 0x11C00000))) (Nd (Nd (Lf 0x11C00000) (Lf
  0x11C00000)) (Nd (Lf 0x11C00000) (Lf 0x11C00000)))))).
Definition up_73 : trie N :=
  (Nd (Nd (Nd (Nd (Nd (Lf 0x11C00000) (Lf 0x11C00000)) (Nd (Lf 0x11C00000) (Lf 0x11C00000))) (Nd (Nd (Lf
  0x11C00000) (Lf 0x11C00000)) (Nd (Lf 0x11C00000) (Lf 0x11C00000)))) (Nd (Nd (Nd (Lf 0x11C00000) (Lf
  0x14400000)) (Nd (Lf 0x11C00000) (Lf 0x11C00000))) (Nd (Nd (Lf 0x11C00000) (Lf 0x11C00000)) (Nd (Lf
  0x11C00000) (Lf 0x11C00000))))) (Nd (Nd (Nd (Nd (Lf 0x11C00000) (Lf 0x14400000)) (Nd (Lf 0x11C00000) (Lf
  0x11C00000))) (Nd (Nd (Lf 0x14400000) (Lf 0x11C00000)) (Nd (Lf 0x11C00000) (Lf 0x11C00000)))) (Nd (Nd (Nd
  (Lf 0x11C00000) (Lf 0x11C00000)) (Nd (Lf 0x14400000) (Lf 0x14400000))) (Nd (Nd (Lf 0x19000000) (Lf
  0x11C00000)) (Nd (Lf 0x27400000) (Lf 0x27400000)))))).
Definition up_74 : trie N :=
  (Nd (Nd (Nd (Nd (Nd (Lf 0x27400000) (Lf 0x19C00000)) (Nd (Lf 0x19C00000) (Lf 0x19C00000))) (Nd (Nd (Lf
  0x19C00000) (Lf 0x19C00000)) (Nd (Lf 0x14400000) (Lf 0x19C00000)))) (Nd (Nd (Nd (Lf 0x19C00000) (Lf
  0x27400000)) (Nd (Lf 0x14400000) (Lf 0x27400000))) (Nd (Nd (Lf 0x27400000) (Lf 0x19000000)) (Nd (Lf
  0x14400000) (Lf 0x14400000))))) (Nd (Nd (Nd (Nd (Lf 0x11C00000) (Lf 0x14400000)) (Nd (Lf 0x14400000) (Lf
  0x14400000))) (Nd (Nd (Lf 0x14400000) (Lf 0x14400000)) (Nd (Lf 0x14400000) (Lf 0x14400000)))) (Nd (Nd (Nd
  (Lf 0x14400000) (Lf 0x14400000)) (Nd (Lf 0x14400000) (Lf 0x14400000))) (Nd (Nd (Lf 0x14400000) (Lf
  0x14400000)) (Nd (Lf 0x14400000) (Lf 0x14400000)))))).
Definition up_75 : trie N :=
  (Nd (Nd (Nd (Nd (Nd (Lf 0x11C00000) (Lf 0x11C00000)) (Nd (Lf 0x19C00000) (Lf 0x19C00000))) (Nd (Nd (Lf
  0x14400000) (Lf 0x14400000)) (Nd (Lf 0x27C00000) (Lf 0x28000000)))) (Nd (Nd (Nd (Lf 0x28000000) (Lf
  0x28000000)) (Nd (Lf 0x28000000) (Lf 0x28000000))) (Nd (Nd (Lf 0x28000000) (Lf 0x28000000)) (Nd (Lf
  0x28000000) (Lf 0x28000000))))) (Nd (Nd (Nd (Nd (Lf 0x14400000) (Lf 0x2400000)) (Nd (Lf 0x14400000) (Lf
  0x14400000))) (Nd (Nd (Lf 0x14400000) (Lf 0x14400000)) (Nd (Lf 0x14400000) (Lf 0x14400000)))) (Nd (Nd (Nd
  (Lf 0x14400000) (Lf 0x14400000)) (Nd (Lf 0x14400000) (Lf 0x14400000))) (Nd (Nd (Lf 0x14400000) (Lf
  0x14400000)) (Nd (Lf 0x14400000) (Lf 0x14400000)))))).
Definition up_76 : trie N :=
  (Nd (Nd (Nd (Nd (Nd (Lf 0x11C00000) (Lf 0x11C00000)) (Nd (Lf 0x11C00000) (Lf 0x11C00000))) (Nd (Nd (Lf
  0x11C00000) (Lf 0x11C00000)) (Nd (Lf 0x11C00000) (Lf 0x11C00000)))) (Nd (Nd (Nd (Lf 0x11C00000) (Lf
  0x14400000)) (Nd (Lf 0x11C00000) (Lf 0x11C00000))) (Nd (Nd (Lf 0x11C00000) (Lf 0x11C00000)) (Nd (Lf
  0x11C00000) (Lf 0x11C00000))))) (Nd (Nd (Nd (Nd (Lf 0x11C00000) (Lf 0x14400000)) (Nd (Lf 0x11C00000) (Lf
  0x11C00000))) (Nd (Nd (Lf 0x14400000) (Lf 0x11C00000)) (Nd (Lf 0x11C00000) (Lf 0x11C00000)))) (Nd (Nd (Nd
  (Lf 0x11C00000) (Lf 0x11C00000)) (Nd (Lf 0x14400000) (Lf 0x14400000))) (Nd (Nd (Lf 0x19000000) (Lf
  0x11C00000)) (Nd (Lf 0x27400000) (Lf 0x19C00000)))))).
Definition up_77 : trie N :=
  (Nd (Nd (Nd (Nd (Nd (Lf 0x27400000) (Lf 0x19C00000)) (Nd (Lf 0x19C00000) (Lf 0x19C00000))) (Nd (Nd (Lf
  0x14400000) (Lf 0x14400000)) (Nd (Lf 0x14400000) (Lf 0x27400000)))) (Nd (Nd (Nd (Lf 0x28420340) (Lf
  0x14400000)) (Nd (Lf 0x14400000) (Lf 0x28420342))) (Nd (Nd (Lf 0x28420344) (Lf 0x19000000)) (Nd (Lf
  0x14400000) (Lf 0x14400000))))) (Nd (Nd (Nd (Nd (Lf 0x14400000) (Lf 0x14400000)) (Nd (Lf 0x14400000) (Lf
  0x14400000))) (Nd (Nd (Lf 0x14400000) (Lf 0x14400000)) (Nd (Lf 0x19C00000) (Lf 0x27400000)))) (Nd (Nd (Nd
  (Lf 0x14400000) (Lf 0x14400000)) (Nd (Lf 0x14400000) (Lf 0x14400000))) (Nd (Nd (Lf 0x27820346) (Lf
  0x27820348)) (Nd (Lf 0x14400000) (Lf 0x11C00000)))))).
Definition up_78 : trie N :=
  (Nd (Nd (Nd (Nd (Nd (Lf 0x11C00000) (Lf 0x11C00000)) (Nd (Lf 0x14400000) (Lf 0x14400000))) (Nd (Nd (Lf
  0x14400000) (Lf 0x14400000)) (Nd (Lf 0x27C00000) (Lf 0x28000000)))) (Nd (Nd (Nd (Lf 0x28000000) (Lf
  0x28000000)) (Nd (Lf 0x28000000) (Lf 0x28000000))) (Nd (Nd (Lf 0x28000000) (Lf 0x28000000)) (Nd (Lf
  0x28000000) (Lf 0x28000000))))) (Nd (Nd (Nd (Nd (Lf 0x21000000) (Lf 0x11C00000)) (Nd (Lf 0x14400000) (Lf
  0x14400000))) (Nd (Nd (Lf 0x14400000) (Lf 0x14400000)) (Nd (Lf 0x14400000) (Lf 0x14400000)))) (Nd (Nd (Nd
  (Lf 0x14400000) (Lf 0x14400000)) (Nd (Lf 0x14400000) (Lf 0x14400000))) (Nd (Nd (Lf 0x14400000) (Lf
  0x14400000)) (Nd (Lf 0x14400000) (Lf 0x14400000)))))).
Definition up_79 : trie N :=
  (Nd (Nd (Nd (Nd (Nd (Lf 0x14400000) (Lf 0x14400000)) (Nd (Lf 0x19C00000) (Lf 0x11C00000))) (Nd (Nd (Lf
  0x14400000) (Lf 0x11C00000)) (Nd (Lf 0x11C00000) (Lf 0x11C00000)))) (Nd (Nd (Nd (Lf 0x11C00000) (Lf
  0x11C00000)) (Nd (Lf 0x11C00000) (Lf 0x14400000))) (Nd (Nd (Lf 0x14400000) (Lf 0x14400000)) (Nd (Lf
  0x11C00000) (Lf 0x11C00000))))) (Nd (Nd (Nd (Nd (Lf 0x11C00000) (Lf 0x14400000)) (Nd (Lf 0x11C00000) (Lf
  0x11C00000))) (Nd (Nd (Lf 0x2782034A) (Lf 0x11C00000)) (Nd (Lf 0x14400000) (Lf 0x14400000)))) (Nd (Nd (Nd
  (Lf 0x14400000) (Lf 0x11C00000)) (Nd (Lf 0x11C00000) (Lf 0x14400000))) (Nd (Nd (Lf 0x11C00000) (Lf
  0x14400000)) (Nd (Lf 0x11C00000) (Lf 0x11C00000)))))).
Definition up_80 : trie N :=
  (Nd (Nd (Nd (Nd (Nd (Lf 0x14400000) (Lf 0x14400000)) (Nd (Lf 0x14400000) (Lf 0x11C00000))) (Nd (Nd (Lf
  0x11C00000) (Lf 0x14400000)) (Nd (Lf 0x14400000) (Lf 0x14400000)))) (Nd (Nd (Nd (Lf 0x11C00000) (Lf
  0x11C00000)) (Nd (Lf 0x11C00000) (Lf 0x14400000))) (Nd (Nd (Lf 0x14400000) (Lf 0x14400000)) (Nd (Lf
  0x11C00000) (Lf 0x11C00000))))) (Nd (Nd (Nd (Nd (Lf 0x11C00000) (Lf 0x11C00000)) (Nd (Lf 0x11C00000) (Lf
  0x11C00000))) (Nd (Nd (Lf 0x11C00000) (Lf 0x11C00000)) (Nd (Lf 0x14400000) (Lf 0x11C00000)))) (Nd (Nd (Nd
  (Lf 0x11C00000) (Lf 0x11C00000)) (Nd (Lf 0x14400000) (Lf 0x14400000))) (Nd (Nd (Lf 0x14400000) (Lf
  0x14400000)) (Nd (Lf 0x27400000) (Lf 0x27400000)))))).
Definition up_81 : trie N :=
  (Nd (Nd (Nd (Nd (Nd (Lf 0x19C00000) (Lf 0x27400000)) (Nd (Lf 0x27400000) (Lf 0x14400000))) (Nd (Nd (Lf
  0x14400000) (Lf 0x14400000)) (Nd (Lf 0x27400000) (Lf 0x27400000)))) (Nd (Nd (Nd (Lf 0x27400000) (Lf
  0x14400000)) (Nd (Lf 0x2842034C) (Lf 0x2842034E))) (Nd (Nd (Lf 0x28420350) (Lf 0x19000000)) (Nd (Lf
  0x14400000) (Lf 0x14400000))))) (Nd (Nd (Nd (Nd (Lf 0x14400000) (Lf 0x14400000)) (Nd (Lf 0x14400000) (Lf
  0x14400000))) (Nd (Nd (Lf 0x14400000) (Lf 0x14400000)) (Nd (Lf 0x14400000) (Lf 0x27400000)))) (Nd (Nd (Nd
  (Lf 0x14400000) (Lf 0x14400000)) (Nd (Lf 0x14400000) (Lf 0x14400000))) (Nd (Nd (Lf 0x14400000) (Lf
  0x14400000)) (Nd (Lf 0x14400000) (Lf 0x14400000)))))).
Definition up_82 : trie N :=
  (Nd (Nd (Nd (Nd (Nd (Lf 0x14400000) (Lf 0x14400000)) (Nd (Lf 0x14400000) (Lf 0x14400000))) (Nd (Nd (Lf
  0x14400000) (Lf 0x14400000)) (Nd (Lf 0x14400000) (Lf 0x28000000)))) (Nd (Nd (Nd (Lf 0x28000000) (Lf
  0x28000000)) (Nd (Lf 0x28000000) (Lf 0x28000000))) (Nd (Nd (Lf 0x28000000) (Lf 0x28000000)) (Nd (Lf
  0x28000000) (Lf 0x28000000))))) (Nd (Nd (Nd (Nd (Lf 0x28800000) (Lf 0x28800000)) (Nd (Lf 0x28800000) (Lf
  0x7400000))) (Nd (Nd (Lf 0x7400000) (Lf 0x7400000)) (Nd (Lf 0x7400000) (Lf 0x7400000)))) (Nd (Nd (Nd (Lf
  0x7400000) (Lf 0x2400000)) (Nd (Lf 0x7400000) (Lf 0x14400000))) (Nd (Nd (Lf 0x14400000) (Lf 0x14400000)) (Nd
  (Lf 0x14400000) (Lf 0x14400000)))))).
Definition up_83 : trie N :=
  (Nd (Nd (Nd (Nd (Nd (Lf 0x14400000) (Lf 0x27400000)) (Nd (Lf 0x27400000) (Lf 0x27400000))) (Nd (Nd (Lf
  0x14400000) (Lf 0x11C00000)) (Nd (Lf 0x11C00000) (Lf 0x11C00000)))) (Nd (Nd (Nd (Lf 0x11C00000) (Lf
  0x11C00000)) (Nd (Lf 0x11C00000) (Lf 0x11C00000))) (Nd (Nd (Lf 0x11C00000) (Lf 0x14400000)) (Nd (Lf
  0x11C00000) (Lf 0x11C00000))))) (Nd (Nd (Nd (Nd (Lf 0x11C00000) (Lf 0x14400000)) (Nd (Lf 0x11C00000) (Lf
  0x11C00000))) (Nd (Nd (Lf 0x11C00000) (Lf 0x11C00000)) (Nd (Lf 0x11C00000) (Lf 0x11C00000)))) (Nd (Nd (Nd
  (Lf 0x11C00000) (Lf 0x11C00000)) (Nd (Lf 0x11C00000) (Lf 0x11C00000))) (Nd (Nd (Lf 0x11C00000) (Lf
  0x11C00000)) (Nd (Lf 0x11C00000) (Lf 0x11C00000)))))).
Definition up_84 : trie N :=
  (Nd (Nd (Nd (Nd (Nd (Lf 0x11C00000) (Lf 0x11C00000)) (Nd (Lf 0x11C00000) (Lf 0x11C00000))) (Nd (Nd (Lf
  0x11C00000) (Lf 0x11C00000)) (Nd (Lf 0x11C00000) (Lf 0x11C00000)))) (Nd (Nd (Nd (Lf 0x11C00000) (Lf
  0x14400000)) (Nd (Lf 0x11C00000) (Lf 0x11C00000))) (Nd (Nd (Lf 0x11C00000) (Lf 0x11C00000)) (Nd (Lf
  0x11C00000) (Lf 0x11C00000))))) (Nd (Nd (Nd (Nd (Lf 0x11C00000) (Lf 0x11C00000)) (Nd (Lf 0x11C00000) (Lf
  0x11C00000))) (Nd (Nd (Lf 0x14400000) (Lf 0x11C00000)) (Nd (Lf 0x11C00000) (Lf 0x11C00000)))) (Nd (Nd (Nd
  (Lf 0x11C00000) (Lf 0x11C00000)) (Nd (Lf 0x14400000) (Lf 0x14400000))) (Nd (Nd (Lf 0x14400000) (Lf
  0x14400000)) (Nd (Lf 0x19C00000) (Lf 0x19C00000)))))).
Definition up_85 : trie N :=
  (Nd (Nd (Nd (Nd (Nd (Lf 0x19C00000) (Lf 0x27400000)) (Nd (Lf 0x27400000) (Lf 0x27400000))) (Nd (Nd (Lf
  0x27400000) (Lf 0x14400000)) (Nd (Lf 0x19C00000) (Lf 0x19C00000)))) (Nd (Nd (Nd (Lf 0x28C20352) (Lf
  0x14400000)) (Nd (Lf 0x19C00000) (Lf 0x19C00000))) (Nd (Nd (Lf 0x19C00000) (Lf 0x19000000)) (Nd (Lf
  0x14400000) (Lf 0x14400000))))) (Nd (Nd (Nd (Nd (Lf 0x14400000) (Lf 0x14400000)) (Nd (Lf 0x14400000) (Lf
  0x14400000))) (Nd (Nd (Lf 0x14400000) (Lf 0x19000000)) (Nd (Lf 0x19000000) (Lf 0x14400000)))) (Nd (Nd (Nd
  (Lf 0x14400000) (Lf 0x14400000)) (Nd (Lf 0x14400000) (Lf 0x14400000))) (Nd (Nd (Lf 0x14400000) (Lf
  0x14400000)) (Nd (Lf 0x14400000) (Lf 0x14400000)))))).
Definition up_86 : trie N :=
  (Nd (Nd (Nd (Nd (Nd (Lf 0x11C00000) (Lf 0x11C00000)) (Nd (Lf 0x14400000) (Lf 0x14400000))) (Nd (Nd (Lf
  0x14400000) (Lf 0x14400000)) (Nd (Lf 0x27C00000) (Lf 0x28000000)))) (Nd (Nd (Nd (Lf 0x28000000) (Lf
  0x28000000)) (Nd (Lf 0x28000000) (Lf 0x28000000))) (Nd (Nd (Lf 0x28000000) (Lf 0x28000000)) (Nd (Lf
  0x28000000) (Lf 0x28000000))))) (Nd (Nd (Nd (Nd (Lf 0x14400000) (Lf 0x14400000)) (Nd (Lf 0x14400000) (Lf
  0x14400000))) (Nd (Nd (Lf 0x14400000) (Lf 0x14400000)) (Nd (Lf 0x14400000) (Lf 0x14400000)))) (Nd (Nd (Nd
  (Lf 0x14400000) (Lf 0x14400000)) (Nd (Lf 0x14400000) (Lf 0x14400000))) (Nd (Nd (Lf 0x14400000) (Lf
  0x14400000)) (Nd (Lf 0x14400000) (Lf 0x14400000)))))).
Definition up_87 : trie N :=
  (Nd (Nd (Nd (Nd (Nd (Lf 0x14400000) (Lf 0x14400000)) (Nd (Lf 0x27400000) (Lf 0x27400000))) (Nd (Nd (Lf
  0x14400000) (Lf 0x11C00000)) (Nd (Lf 0x11C00000) (Lf 0x11C00000)))) (Nd (Nd (Nd (Lf 0x11C00000) (Lf
  0x11C00000)) (Nd (Lf 0x11C00000) (Lf 0x11C00000))) (Nd (Nd (Lf 0x11C00000) (Lf 0x14400000)) (Nd (Lf
  0x11C00000) (Lf 0x11C00000))))) (Nd (Nd (Nd (Nd (Lf 0x11C00000) (Lf 0x14400000)) (Nd (Lf 0x11C00000) (Lf
  0x11C00000))) (Nd (Nd (Lf 0x11C00000) (Lf 0x11C00000)) (Nd (Lf 0x11C00000) (Lf 0x11C00000)))) (Nd (Nd (Nd
  (Lf 0x11C00000) (Lf 0x11C00000)) (Nd (Lf 0x11C00000) (Lf 0x11C00000))) (Nd (Nd (Lf 0x11C00000) (Lf
  0x11C00000)) (Nd (Lf 0x11C00000) (Lf 0x11C00000)))))).
Definition up_88 : trie N :=
  (Nd (Nd (Nd (Nd (Nd (Lf 0x11C00000) (Lf 0x11C00000)) (Nd (Lf 0x11C00000) (Lf 0x11C00000))) (Nd (Nd (Lf
  0x11C00000) (Lf 0x11C00000)) (Nd (Lf 0x11C00000) (Lf 0x11C00000)))) (Nd (Nd (Nd (Lf 0x11C00000) (Lf
  0x14400000)) (Nd (Lf 0x11C00000) (Lf 0x11C00000))) (Nd (Nd (Lf 0x11C00000) (Lf 0x11C00000)) (Nd (Lf
  0x11C00000) (Lf 0x11C00000))))) (Nd (Nd (Nd (Nd (Lf 0x11C00000) (Lf 0x11C00000)) (Nd (Lf 0x11C00000) (Lf
  0x11C00000))) (Nd (Nd (Lf 0x14400000) (Lf 0x11C00000)) (Nd (Lf 0x11C00000) (Lf 0x11C00000)))) (Nd (Nd (Nd
  (Lf 0x11C00000) (Lf 0x11C00000)) (Nd (Lf 0x14400000) (Lf 0x14400000))) (Nd (Nd (Lf 0x19000000) (Lf
  0x11C00000)) (Nd (Lf 0x27400000) (Lf 0x29000000)))))).
Definition up_89 : trie N :=
  (Nd (Nd (Nd (Nd (Nd (Lf 0x28420354) (Lf 0x27400000)) (Nd (Lf 0x27400000) (Lf 0x27400000))) (Nd (Nd (Lf
  0x27400000) (Lf 0x14400000)) (Nd (Lf 0x29000000) (Lf 0x28420356)))) (Nd (Nd (Nd (Lf 0x28420358) (Lf
  0x14400000)) (Nd (Lf 0x2842035A) (Lf 0x2842035C))) (Nd (Nd (Lf 0x19C00000) (Lf 0x19000000)) (Nd (Lf
  0x14400000) (Lf 0x14400000))))) (Nd (Nd (Nd (Nd (Lf 0x14400000) (Lf 0x14400000)) (Nd (Lf 0x14400000) (Lf
  0x14400000))) (Nd (Nd (Lf 0x14400000) (Lf 0x27400000)) (Nd (Lf 0x27400000) (Lf 0x14400000)))) (Nd (Nd (Nd
  (Lf 0x14400000) (Lf 0x14400000)) (Nd (Lf 0x14400000) (Lf 0x14400000))) (Nd (Nd (Lf 0x14400000) (Lf
  0x14400000)) (Nd (Lf 0x11C00000) (Lf 0x14400000)))))).
Definition up_90 : trie N :=
  (Nd (Nd (Nd (Nd (Nd (Lf 0x11C00000) (Lf 0x11C00000)) (Nd (Lf 0x11C00000) (Lf 0x11C00000))) (Nd (Nd (Lf
  0x11C00000) (Lf 0x11C00000)) (Nd (Lf 0x11C00000) (Lf 0x11C00000)))) (Nd (Nd (Nd (Lf 0x11C00000) (Lf
  0x14400000)) (Nd (Lf 0x11C00000) (Lf 0x11C00000))) (Nd (Nd (Lf 0x11C00000) (Lf 0x11C00000)) (Nd (Lf
  0x11C00000) (Lf 0x11C00000))))) (Nd (Nd (Nd (Nd (Lf 0x11C00000) (Lf 0x11C00000)) (Nd (Lf 0x11C00000) (Lf
  0x11C00000))) (Nd (Nd (Lf 0x11C00000) (Lf 0x11C00000)) (Nd (Lf 0x11C00000) (Lf 0x11C00000)))) (Nd (Nd (Nd
  (Lf 0x11C00000) (Lf 0x11C00000)) (Nd (Lf 0x14400000) (Lf 0x14400000))) (Nd (Nd (Lf 0x14400000) (Lf
  0x14400000)) (Nd (Lf 0x27400000) (Lf 0x27400000)))))).
Definition up_91 : trie N :=
  (Nd (Nd (Nd (Nd (Nd (Lf 0x27400000) (Lf 0x19C00000)) (Nd (Lf 0x19C00000) (Lf 0x19C00000))) (Nd (Nd (Lf
  0x14400000) (Lf 0x14400000)) (Nd (Lf 0x27400000) (Lf 0x27400000)))) (Nd (Nd (Nd (Lf 0x27400000) (Lf
  0x14400000)) (Nd (Lf 0x2842035E) (Lf 0x28420360))) (Nd (Nd (Lf 0x28420362) (Lf 0x19000000)) (Nd (Lf
  0x14400000) (Lf 0x14400000))))) (Nd (Nd (Nd (Nd (Lf 0x14400000) (Lf 0x14400000)) (Nd (Lf 0x14400000) (Lf
  0x14400000))) (Nd (Nd (Lf 0x14400000) (Lf 0x14400000)) (Nd (Lf 0x14400000) (Lf 0x27400000)))) (Nd (Nd (Nd
  (Lf 0x14400000) (Lf 0x14400000)) (Nd (Lf 0x14400000) (Lf 0x14400000))) (Nd (Nd (Lf 0x14400000) (Lf
  0x14400000)) (Nd (Lf 0x14400000) (Lf 0x14400000)))))).
Definition up_92 : trie N :=
  (Nd (Nd (Nd (Nd (Nd (Lf 0x14400000) (Lf 0x14400000)) (Nd (Lf 0x27400000) (Lf 0x27400000))) (Nd (Nd (Lf
  0x14400000) (Lf 0x11C00000)) (Nd (Lf 0x11C00000) (Lf 0x11C00000)))) (Nd (Nd (Nd (Lf 0x11C00000) (Lf
  0x11C00000)) (Nd (Lf 0x11C00000) (Lf 0x11C00000))) (Nd (Nd (Lf 0x11C00000) (Lf 0x11C00000)) (Nd (Lf
  0x11C00000) (Lf 0x11C00000))))) (Nd (Nd (Nd (Nd (Lf 0x11C00000) (Lf 0x11C00000)) (Nd (Lf 0x11C00000) (Lf
  0x11C00000))) (Nd (Nd (Lf 0x11C00000) (Lf 0x11C00000)) (Nd (Lf 0x11C00000) (Lf 0x14400000)))) (Nd (Nd (Nd
  (Lf 0x14400000) (Lf 0x14400000)) (Nd (Lf 0x11C00000) (Lf 0x11C00000))) (Nd (Nd (Lf 0x11C00000) (Lf
  0x11C00000)) (Nd (Lf 0x11C00000) (Lf 0x11C00000)))))).
Definition up_93 : trie N :=
  (Nd (Nd (Nd (Nd (Nd (Lf 0x11C00000) (Lf 0x11C00000)) (Nd (Lf 0x11C00000) (Lf 0x11C00000))) (Nd (Nd (Lf
  0x11C00000) (Lf 0x11C00000)) (Nd (Lf 0x11C00000) (Lf 0x11C00000)))) (Nd (Nd (Nd (Lf 0x11C00000) (Lf
  0x11C00000)) (Nd (Lf 0x11C00000) (Lf 0x11C00000))) (Nd (Nd (Lf 0x11C00000) (Lf 0x11C00000)) (Nd (Lf
  0x11C00000) (Lf 0x11C00000))))) (Nd (Nd (Nd (Nd (Lf 0x11C00000) (Lf 0x11C00000)) (Nd (Lf 0x14400000) (Lf
  0x11C00000))) (Nd (Nd (Lf 0x11C00000) (Lf 0x11C00000)) (Nd (Lf 0x11C00000) (Lf 0x11C00000)))) (Nd (Nd (Nd
  (Lf 0x11C00000) (Lf 0x11C00000)) (Nd (Lf 0x11C00000) (Lf 0x11C00000))) (Nd (Nd (Lf 0x14400000) (Lf
  0x11C00000)) (Nd (Lf 0x14400000) (Lf 0x14400000)))))).
Definition up_94 : trie N :=
  (Nd (Nd (Nd (Nd (Nd (Lf 0x11C00000) (Lf 0x11C00000)) (Nd (Lf 0x11C00000) (Lf 0x11C00000))) (Nd (Nd (Lf
  0x11C00000) (Lf 0x11C00000)) (Nd (Lf 0x11C00000) (Lf 0x14400000)))) (Nd (Nd (Nd (Lf 0x14400000) (Lf
  0x14400000)) (Nd (Lf 0x19000000) (Lf 0x14400000))) (Nd (Nd (Lf 0x14400000) (Lf 0x14400000)) (Nd (Lf
  0x14400000) (Lf 0x27400000))))) (Nd (Nd (Nd (Nd (Lf 0x27400000) (Lf 0x27400000)) (Nd (Lf 0x19C00000) (Lf
  0x19C00000))) (Nd (Nd (Lf 0x19C00000) (Lf 0x14400000)) (Nd (Lf 0x19C00000) (Lf 0x14400000)))) (Nd (Nd (Nd
  (Lf 0x27400000) (Lf 0x27400000)) (Nd (Lf 0x28420364) (Lf 0x27400000))) (Nd (Nd (Lf 0x28420366) (Lf
  0x28420368)) (Nd (Lf 0x2842036A) (Lf 0x27400000)))))).
Definition up_95 : trie N :=
  (Nd (Nd (Nd (Nd (Nd (Lf 0x14400000) (Lf 0x14400000)) (Nd (Lf 0x14400000) (Lf 0x14400000))) (Nd (Nd (Lf
  0x14400000) (Lf 0x14400000)) (Nd (Lf 0x14400000) (Lf 0x14400000)))) (Nd (Nd (Nd (Lf 0x14400000) (Lf
  0x14400000)) (Nd (Lf 0x14400000) (Lf 0x14400000))) (Nd (Nd (Lf 0x14400000) (Lf 0x14400000)) (Nd (Lf
  0x14400000) (Lf 0x14400000))))) (Nd (Nd (Nd (Nd (Lf 0x14400000) (Lf 0x14400000)) (Nd (Lf 0x27400000) (Lf
  0x27400000))) (Nd (Nd (Lf 0x22000000) (Lf 0x14400000)) (Nd (Lf 0x14400000) (Lf 0x14400000)))) (Nd (Nd (Nd
  (Lf 0x14400000) (Lf 0x14400000)) (Nd (Lf 0x14400000) (Lf 0x14400000))) (Nd (Nd (Lf 0x14400000) (Lf
  0x14400000)) (Nd (Lf 0x14400000) (Lf 0x14400000)))))).
Definition up_96 : trie N :=
  (Nd (Nd (Nd (Nd (Nd (Lf 0x14400000) (Lf 0x11C00000)) (Nd (Lf 0x11C00000) (Lf 0x11C00000))) (Nd (Nd (Lf
  0x11C00000) (Lf 0x11C00000)) (Nd (Lf 0x11C00000) (Lf 0x11C00000)))) (Nd (Nd (Nd (Lf 0x11C00000) (Lf
  0x11C00000)) (Nd (Lf 0x11C00000) (Lf 0x11C00000))) (Nd (Nd (Lf 0x11C00000) (Lf 0x11C00000)) (Nd (Lf
  0x11C00000) (Lf 0x11C00000))))) (Nd (Nd (Nd (Nd (Lf 0x11C00000) (Lf 0x11C00000)) (Nd (Lf 0x11C00000) (Lf
  0x11C00000))) (Nd (Nd (Lf 0x11C00000) (Lf 0x11C00000)) (Nd (Lf 0x11C00000) (Lf 0x11C00000)))) (Nd (Nd (Nd
  (Lf 0x11C00000) (Lf 0x11C00000)) (Nd (Lf 0x11C00000) (Lf 0x11C00000))) (Nd (Nd (Lf 0x11C00000) (Lf
  0x11C00000)) (Nd (Lf 0x11C00000) (Lf 0x11C00000)))))).
Definition up_97 : trie N :=
  (Nd (Nd (Nd (Nd (Nd (Lf 0x11C00000) (Lf 0x11C00000)) (Nd (Lf 0x11C00000) (Lf 0x11C00000))) (Nd (Nd (Lf
  0x11C00000) (Lf 0x11C00000)) (Nd (Lf 0x11C00000) (Lf 0x11C00000)))) (Nd (Nd (Nd (Lf 0x11C00000) (Lf
  0x11C00000)) (Nd (Lf 0x11C00000) (Lf 0x11C00000))) (Nd (Nd (Lf 0x11C00000) (Lf 0x11C00000)) (Nd (Lf
  0x11C00000) (Lf 0x11C00000))))) (Nd (Nd (Nd (Nd (Lf 0x11C00000) (Lf 0x19C00000)) (Nd (Lf 0x11C00000) (Lf
  0x2942036C))) (Nd (Nd (Lf 0x19C00000) (Lf 0x19C00000)) (Nd (Lf 0x19C00000) (Lf 0x19C00000)))) (Nd (Nd (Nd
  (Lf 0x19000000) (Lf 0x19000000)) (Nd (Lf 0x19000000) (Lf 0x14400000))) (Nd (Nd (Lf 0x14400000) (Lf
  0x14400000)) (Nd (Lf 0x14400000) (Lf 0x2400000)))))).
Definition up_98 : trie N :=
  (Nd (Nd (Nd (Nd (Nd (Lf 0x11C00000) (Lf 0x11C00000)) (Nd (Lf 0x11C00000) (Lf 0x11C00000))) (Nd (Nd (Lf
  0x11C00000) (Lf 0x11C00000)) (Nd (Lf 0x18C00000) (Lf 0x19C00000)))) (Nd (Nd (Nd (Lf 0x19000000) (Lf
  0x19000000)) (Nd (Lf 0x19000000) (Lf 0x19000000))) (Nd (Nd (Lf 0x19C00000) (Lf 0x19C00000)) (Nd (Lf
  0x19C00000) (Lf 0x22000000))))) (Nd (Nd (Nd (Nd (Lf 0x27C00000) (Lf 0x29800000)) (Nd (Lf 0x29800000) (Lf
  0x29800000))) (Nd (Nd (Lf 0x29800000) (Lf 0x29800000)) (Nd (Lf 0x29800000) (Lf 0x29800000)))) (Nd (Nd (Nd
  (Lf 0x29800000) (Lf 0x29800000)) (Nd (Lf 0x22000000) (Lf 0x22000000))) (Nd (Nd (Lf 0x14400000) (Lf
  0x14400000)) (Nd (Lf 0x14400000) (Lf 0x14400000)))))).
Definition up_99 : trie N :=
  (Nd (Nd (Nd (Nd (Nd (Lf 0x14400000) (Lf 0x11C00000)) (Nd (Lf 0x11C00000) (Lf 0x14400000))) (Nd (Nd (Lf
  0x11C00000) (Lf 0x14400000)) (Nd (Lf 0x14400000) (Lf 0x11C00000)))) (Nd (Nd (Nd (Lf 0x11C00000) (Lf
  0x14400000)) (Nd (Lf 0x11C00000) (Lf 0x14400000))) (Nd (Nd (Lf 0x14400000) (Lf 0x11C00000)) (Nd (Lf
  0x14400000) (Lf 0x14400000))))) (Nd (Nd (Nd (Nd (Lf 0x14400000) (Lf 0x14400000)) (Nd (Lf 0x14400000) (Lf
  0x14400000))) (Nd (Nd (Lf 0x11C00000) (Lf 0x11C00000)) (Nd (Lf 0x11C00000) (Lf 0x11C00000)))) (Nd (Nd (Nd
  (Lf 0x14400000) (Lf 0x11C00000)) (Nd (Lf 0x11C00000) (Lf 0x11C00000))) (Nd (Nd (Lf 0x11C00000) (Lf
  0x11C00000)) (Nd (Lf 0x11C00000) (Lf 0x11C00000)))))).
Definition up_100 : trie N :=
  (Nd (Nd (Nd (Nd (Nd (Lf 0x14400000) (Lf 0x11C00000)) (Nd (Lf 0x11C00000) (Lf 0x11C00000))) (Nd (Nd (Lf
  0x14400000) (Lf 0x11C00000)) (Nd (Lf 0x14400000) (Lf 0x11C00000)))) (Nd (Nd (Nd (Lf 0x14400000) (Lf
  0x14400000)) (Nd (Lf 0x11C00000) (Lf 0x11C00000))) (Nd (Nd (Lf 0x14400000) (Lf 0x11C00000)) (Nd (Lf
  0x11C00000) (Lf 0x11C00000))))) (Nd (Nd (Nd (Nd (Lf 0x11C00000) (Lf 0x19C00000)) (Nd (Lf 0x11C00000) (Lf
  0x2942036E))) (Nd (Nd (Lf 0x19C00000) (Lf 0x19C00000)) (Nd (Lf 0x19C00000) (Lf 0x19C00000)))) (Nd (Nd (Nd
  (Lf 0x19000000) (Lf 0x19000000)) (Nd (Lf 0x14400000) (Lf 0x19C00000))) (Nd (Nd (Lf 0x19C00000) (Lf
  0x11C00000)) (Nd (Lf 0x14400000) (Lf 0x14400000)))))).
Definition up_101 : trie N :=
  (Nd (Nd (Nd (Nd (Nd (Lf 0x11C00000) (Lf 0x11C00000)) (Nd (Lf 0x11C00000) (Lf 0x11C00000))) (Nd (Nd (Lf
  0x11C00000) (Lf 0x14400000)) (Nd (Lf 0x18C00000) (Lf 0x14400000)))) (Nd (Nd (Nd (Lf 0x19000000) (Lf
  0x19000000)) (Nd (Lf 0x19000000) (Lf 0x19000000))) (Nd (Nd (Lf 0x19C00000) (Lf 0x19C00000)) (Nd (Lf
  0x14400000) (Lf 0x14400000))))) (Nd (Nd (Nd (Nd (Lf 0x27C00000) (Lf 0x29800000)) (Nd (Lf 0x29800000) (Lf
  0x29800000))) (Nd (Nd (Lf 0x29800000) (Lf 0x29800000)) (Nd (Lf 0x29800000) (Lf 0x29800000)))) (Nd (Nd (Nd
  (Lf 0x29800000) (Lf 0x29800000)) (Nd (Lf 0x14400000) (Lf 0x14400000))) (Nd (Nd (Lf 0x29420370) (Lf
  0x29420372)) (Nd (Lf 0x14400000) (Lf 0x14400000)))))).
Definition up_102 : trie N :=
  (Nd (Nd (Nd (Nd (Nd (Lf 0x11C00000) (Lf 0x21000000)) (Nd (Lf 0x21000000) (Lf 0x21000000))) (Nd (Nd (Lf
  0x22000000) (Lf 0x22000000)) (Nd (Lf 0x22000000) (Lf 0x22000000)))) (Nd (Nd (Nd (Lf 0x22000000) (Lf
  0x22000000)) (Nd (Lf 0x22000000) (Lf 0x22000000))) (Nd (Nd (Lf 0x29C10374) (Lf 0x22000000)) (Nd (Lf
  0x22000000) (Lf 0x22000000))))) (Nd (Nd (Nd (Nd (Lf 0x22000000) (Lf 0x22000000)) (Nd (Lf 0x22000000) (Lf
  0x21000000))) (Nd (Nd (Lf 0x21000000) (Lf 0x21000000)) (Nd (Lf 0x21000000) (Lf 0x21000000)))) (Nd (Nd (Nd
  (Lf 0x19000000) (Lf 0x19000000)) (Nd (Lf 0x21000000) (Lf 0x21000000))) (Nd (Nd (Lf 0x21000000) (Lf
  0x21000000)) (Nd (Lf 0x21000000) (Lf 0x21000000)))))).
Definition up_103 : trie N :=
  (Nd (Nd (Nd (Nd (Nd (Lf 0x27C00000) (Lf 0x2A000000)) (Nd (Lf 0x2A000000) (Lf 0x2A000000))) (Nd (Nd (Lf
  0x2A000000) (Lf 0x2A000000)) (Nd (Lf 0x2A000000) (Lf 0x2A000000)))) (Nd (Nd (Nd (Lf 0x2A000000) (Lf
  0x2A000000)) (Nd (Lf 0x28800000) (Lf 0x28800000))) (Nd (Nd (Lf 0x28800000) (Lf 0x28800000)) (Nd (Lf
  0x28800000) (Lf 0x28800000))))) (Nd (Nd (Nd (Nd (Lf 0x28800000) (Lf 0x28800000)) (Nd (Lf 0x28800000) (Lf
  0x28800000))) (Nd (Nd (Lf 0x21000000) (Lf 0x19000000)) (Nd (Lf 0x21000000) (Lf 0x19000000)))) (Nd (Nd (Nd
  (Lf 0x21000000) (Lf 0x19000000)) (Nd (Lf 0x3000000) (Lf 0x3400000))) (Nd (Nd (Lf 0x3000000) (Lf 0x3400000))
  (Nd (Lf 0x27400000) (Lf 0x27400000)))))).
Definition up_104 : trie N :=
  (Nd (Nd (Nd (Nd (Nd (Lf 0x11C00000) (Lf 0x11C00000)) (Nd (Lf 0x11C00000) (Lf 0x27820375))) (Nd (Nd (Lf
  0x11C00000) (Lf 0x11C00000)) (Nd (Lf 0x11C00000) (Lf 0x11C00000)))) (Nd (Nd (Nd (Lf 0x14400000) (Lf
  0x11C00000)) (Nd (Lf 0x11C00000) (Lf 0x11C00000))) (Nd (Nd (Lf 0x11C00000) (Lf 0x27820377)) (Nd (Lf
  0x11C00000) (Lf 0x11C00000))))) (Nd (Nd (Nd (Nd (Lf 0x11C00000) (Lf 0x11C00000)) (Nd (Lf 0x27820379) (Lf
  0x11C00000))) (Nd (Nd (Lf 0x11C00000) (Lf 0x11C00000)) (Nd (Lf 0x11C00000) (Lf 0x2782037B)))) (Nd (Nd (Nd
  (Lf 0x11C00000) (Lf 0x11C00000)) (Nd (Lf 0x11C00000) (Lf 0x11C00000))) (Nd (Nd (Lf 0x2782037D) (Lf
  0x11C00000)) (Nd (Lf 0x11C00000) (Lf 0x11C00000)))))).
Definition up_105 : trie N :=
  (Nd (Nd (Nd (Nd (Nd (Lf 0x11C00000) (Lf 0x11C00000)) (Nd (Lf 0x11C00000) (Lf 0x11C00000))) (Nd (Nd (Lf
  0x11C00000) (Lf 0x11C00000)) (Nd (Lf 0x11C00000) (Lf 0x11C00000)))) (Nd (Nd (Nd (Lf 0x11C00000) (Lf
  0x2782037F)) (Nd (Lf 0x11C00000) (Lf 0x14400000))) (Nd (Nd (Lf 0x14400000) (Lf 0x14400000)) (Nd (Lf
  0x14400000) (Lf 0x14400000))))) (Nd (Nd (Nd (Nd (Lf 0x14400000) (Lf 0x19000000)) (Nd (Lf 0x19000000) (Lf
  0x28C20381))) (Nd (Nd (Lf 0x19000000) (Lf 0x28C20383)) (Nd (Lf 0x28C20385) (Lf 0x2A420387)))) (Nd (Nd (Nd
  (Lf 0x28C20389) (Lf 0x2A42038B)) (Nd (Lf 0x19000000) (Lf 0x19000000))) (Nd (Nd (Lf 0x19000000) (Lf
  0x19000000)) (Nd (Lf 0x19C00000) (Lf 0x27400000)))))).
Definition up_106 : trie N :=
  (Nd (Nd (Nd (Nd (Nd (Lf 0x19000000) (Lf 0x28C2038D)) (Nd (Lf 0x19000000) (Lf 0x19000000))) (Nd (Nd (Lf
  0x19000000) (Lf 0x22000000)) (Nd (Lf 0x19000000) (Lf 0x19000000)))) (Nd (Nd (Nd (Lf 0x11C00000) (Lf
  0x11C00000)) (Nd (Lf 0x11C00000) (Lf 0x11C00000))) (Nd (Nd (Lf 0x14400000) (Lf 0x14400000)) (Nd (Lf
  0x14400000) (Lf 0x14400000))))) (Nd (Nd (Nd (Nd (Lf 0x19C00000) (Lf 0x19C00000)) (Nd (Lf 0x19C00000) (Lf
  0x28C2038F))) (Nd (Nd (Lf 0x19C00000) (Lf 0x19C00000)) (Nd (Lf 0x19C00000) (Lf 0x19C00000)))) (Nd (Nd (Nd
  (Lf 0x14400000) (Lf 0x19C00000)) (Nd (Lf 0x19C00000) (Lf 0x19C00000))) (Nd (Nd (Lf 0x19C00000) (Lf
  0x28C20391)) (Nd (Lf 0x19C00000) (Lf 0x19C00000)))))).
Definition up_107 : trie N :=
  (Nd (Nd (Nd (Nd (Nd (Lf 0x19C00000) (Lf 0x19C00000)) (Nd (Lf 0x28C20393) (Lf 0x19C00000))) (Nd (Nd (Lf
  0x19C00000) (Lf 0x19C00000)) (Nd (Lf 0x19C00000) (Lf 0x28C20395)))) (Nd (Nd (Nd (Lf 0x19C00000) (Lf
  0x19C00000)) (Nd (Lf 0x19C00000) (Lf 0x19C00000))) (Nd (Nd (Lf 0x28C20397) (Lf 0x19C00000)) (Nd (Lf
  0x19C00000) (Lf 0x19C00000))))) (Nd (Nd (Nd (Nd (Lf 0x19C00000) (Lf 0x19C00000)) (Nd (Lf 0x19C00000) (Lf
  0x19C00000))) (Nd (Nd (Lf 0x19C00000) (Lf 0x19C00000)) (Nd (Lf 0x19C00000) (Lf 0x19C00000)))) (Nd (Nd (Nd
  (Lf 0x19C00000) (Lf 0x28C20399)) (Nd (Lf 0x19C00000) (Lf 0x19C00000))) (Nd (Nd (Lf 0x19C00000) (Lf
  0x14400000)) (Nd (Lf 0x21000000) (Lf 0x21000000)))))).
Definition up_108 : trie N :=
  (Nd (Nd (Nd (Nd (Nd (Lf 0x21000000) (Lf 0x21000000)) (Nd (Lf 0x21000000) (Lf 0x21000000))) (Nd (Nd (Lf
  0x21000000) (Lf 0x21000000)) (Nd (Lf 0x19000000) (Lf 0x21000000)))) (Nd (Nd (Nd (Lf 0x21000000) (Lf
  0x21000000)) (Nd (Lf 0x21000000) (Lf 0x21000000))) (Nd (Nd (Lf 0x21000000) (Lf 0x14400000)) (Nd (Lf
  0x14400000) (Lf 0x21000000))))) (Nd (Nd (Nd (Nd (Lf 0x14400000) (Lf 0x14400000)) (Nd (Lf 0x14400000) (Lf
  0x14400000))) (Nd (Nd (Lf 0x14400000) (Lf 0x14400000)) (Nd (Lf 0x14400000) (Lf 0x14400000)))) (Nd (Nd (Nd
  (Lf 0x14400000) (Lf 0x14400000)) (Nd (Lf 0x14400000) (Lf 0x14400000))) (Nd (Nd (Lf 0x14400000) (Lf
  0x14400000)) (Nd (Lf 0x14400000) (Lf 0x14400000)))))).
Definition up_109 : trie N :=
  (Nd (Nd (Nd (Nd (Nd (Lf 0x11C00000) (Lf 0x11C00000)) (Nd (Lf 0x11C00000) (Lf 0x11C00000))) (Nd (Nd (Lf
  0x11C00000) (Lf 0x11C00000)) (Nd (Lf 0x11C00000) (Lf 0x11C00000)))) (Nd (Nd (Nd (Lf 0x11C00000) (Lf
  0x11C00000)) (Nd (Lf 0x11C00000) (Lf 0x11C00000))) (Nd (Nd (Lf 0x11C00000) (Lf 0x11C00000)) (Nd (Lf
  0x11C00000) (Lf 0x11C00000))))) (Nd (Nd (Nd (Nd (Lf 0x11C00000) (Lf 0x11C00000)) (Nd (Lf 0x11C00000) (Lf
  0x11C00000))) (Nd (Nd (Lf 0x11C00000) (Lf 0x11C00000)) (Nd (Lf 0x11C00000) (Lf 0x11C00000)))) (Nd (Nd (Nd
  (Lf 0x11C00000) (Lf 0x11C00000)) (Nd (Lf 0x11C00000) (Lf 0x11C00000))) (Nd (Nd (Lf 0x11C00000) (Lf
  0x11C00000)) (Nd (Lf 0x11C00000) (Lf 0x11C00000)))))).
Definition up_110 : trie N :=
  (Nd (Nd (Nd (Nd (Nd (Lf 0x11C00000) (Lf 0x11C00000)) (Nd (Lf 0x14400000) (Lf 0x11C00000))) (Nd (Nd (Lf
  0x11C00000) (Lf 0x11C00000)) (Nd (Lf 0x2782039B) (Lf 0x11C00000)))) (Nd (Nd (Nd (Lf 0x14400000) (Lf
  0x11C00000)) (Nd (Lf 0x11C00000) (Lf 0x14400000))) (Nd (Nd (Lf 0x27400000) (Lf 0x19C00000)) (Nd (Lf
  0x19C00000) (Lf 0x19C00000))))) (Nd (Nd (Nd (Nd (Lf 0x19C00000) (Lf 0x27400000)) (Nd (Lf 0x19C00000) (Lf
  0x14400000))) (Nd (Nd (Lf 0x14400000) (Lf 0x14400000)) (Nd (Lf 0x19C00000) (Lf 0x19000000)))) (Nd (Nd (Nd
  (Lf 0x27400000) (Lf 0x19000000)) (Nd (Lf 0x14400000) (Lf 0x14400000))) (Nd (Nd (Lf 0x14400000) (Lf
  0x14400000)) (Nd (Lf 0x14400000) (Lf 0x14400000)))))).
Definition up_111 : trie N :=
  (Nd (Nd (Nd (Nd (Nd (Lf 0x27C00000) (Lf 0x2A000000)) (Nd (Lf 0x2A000000) (Lf 0x2A000000))) (Nd (Nd (Lf
  0x2A000000) (Lf 0x2A000000)) (Nd (Lf 0x2A000000) (Lf 0x2A000000)))) (Nd (Nd (Nd (Lf 0x2A000000) (Lf
  0x2A000000)) (Nd (Lf 0x22000000) (Lf 0x22000000))) (Nd (Nd (Lf 0x22000000) (Lf 0x22000000)) (Nd (Lf
  0x22000000) (Lf 0x22000000))))) (Nd (Nd (Nd (Nd (Lf 0x11C00000) (Lf 0x11C00000)) (Nd (Lf 0x11C00000) (Lf
  0x11C00000))) (Nd (Nd (Lf 0x11C00000) (Lf 0x11C00000)) (Nd (Lf 0x27400000) (Lf 0x27400000)))) (Nd (Nd (Nd
  (Lf 0x19C00000) (Lf 0x19C00000)) (Nd (Lf 0x14400000) (Lf 0x14400000))) (Nd (Nd (Lf 0x14400000) (Lf
  0x14400000)) (Nd (Lf 0x14400000) (Lf 0x14400000)))))).
Definition up_112 : trie N :=
  (Nd (Nd (Nd (Nd (Nd (Lf 0x21800000) (Lf 0x21800000)) (Nd (Lf 0x21800000) (Lf 0x21800000))) (Nd (Nd (Lf
  0x21800000) (Lf 0x21800000)) (Nd (Lf 0x21800000) (Lf 0x21800000)))) (Nd (Nd (Nd (Lf 0x21800000) (Lf
  0x21800000)) (Nd (Lf 0x21800000) (Lf 0x21800000))) (Nd (Nd (Lf 0x21800000) (Lf 0x21800000)) (Nd (Lf
  0x21800000) (Lf 0x21800000))))) (Nd (Nd (Nd (Nd (Lf 0x21800000) (Lf 0x21800000)) (Nd (Lf 0x21800000) (Lf
  0x21800000))) (Nd (Nd (Lf 0x21800000) (Lf 0x21800000)) (Nd (Lf 0x21800000) (Lf 0x21800000)))) (Nd (Nd (Nd
  (Lf 0x21800000) (Lf 0x21800000)) (Nd (Lf 0x21800000) (Lf 0x21800000))) (Nd (Nd (Lf 0x21800000) (Lf
  0x21800000)) (Nd (Lf 0x21800000) (Lf 0x21800000)))))).
Definition up_113 : trie N :=
  (Nd (Nd (Nd (Nd (Nd (Lf 0x21800000) (Lf 0x21800000)) (Nd (Lf 0x21800000) (Lf 0x21800000))) (Nd (Nd (Lf
  0x21800000) (Lf 0x21800000)) (Nd (Lf 0x14400000) (Lf 0x14400000)))) (Nd (Nd (Nd (Lf 0x14400000) (Lf
  0x14400000)) (Nd (Lf 0x14400000) (Lf 0x14400000))) (Nd (Nd (Lf 0x14400000) (Lf 0x14400000)) (Nd (Lf
  0x14400000) (Lf 0x14400000))))) (Nd (Nd (Nd (Nd (Lf 0xA800000) (Lf 0xA800000)) (Nd (Lf 0xA800000) (Lf
  0xA800000))) (Nd (Nd (Lf 0xA800000) (Lf 0xA800000)) (Nd (Lf 0xA800000) (Lf 0xA800000)))) (Nd (Nd (Nd (Lf
  0xA800000) (Lf 0xA800000)) (Nd (Lf 0xA800000) (Lf 0xA800000))) (Nd (Nd (Lf 0xA800000) (Lf 0xA800000)) (Nd
  (Lf 0xA800000) (Lf 0xA800000)))))).
Definition up_114 : trie N :=
  (Nd (Nd (Nd (Nd (Nd (Lf 0xA800000) (Lf 0xA800000)) (Nd (Lf 0xA800000) (Lf 0xA800000))) (Nd (Nd (Lf
  0xA800000) (Lf 0xA800000)) (Nd (Lf 0xA800000) (Lf 0xA800000)))) (Nd (Nd (Nd (Lf 0xA800000) (Lf 0xA800000))
  (Nd (Lf 0xA800000) (Lf 0xA800000))) (Nd (Nd (Lf 0xA800000) (Lf 0xA800000)) (Nd (Lf 0xA800000) (Lf
  0xA800000))))) (Nd (Nd (Nd (Nd (Lf 0xA800000) (Lf 0xA800000)) (Nd (Lf 0xA800000) (Lf 0xA800000))) (Nd (Nd
  (Lf 0xA800000) (Lf 0xA800000)) (Nd (Lf 0xA800000) (Lf 0xA800000)))) (Nd (Nd (Nd (Lf 0xA800000) (Lf
  0x14400000)) (Nd (Lf 0x14400000) (Lf 0x22000000))) (Nd (Nd (Lf 0x14400000) (Lf 0x14400000)) (Nd (Lf
  0x14400000) (Lf 0x14400000)))))).
Definition up_115 : trie N :=
  (Nd (Nd (Nd (Nd (Nd (Lf 0x2A800000) (Lf 0x2A800000)) (Nd (Lf 0x2A800000) (Lf 0x2A800000))) (Nd (Nd (Lf
  0x2A800000) (Lf 0x2A800000)) (Nd (Lf 0x2A800000) (Lf 0x2A800000)))) (Nd (Nd (Nd (Lf 0x2A800000) (Lf
  0x2A800000)) (Nd (Lf 0x2A800000) (Lf 0x2A800000))) (Nd (Nd (Lf 0x2A800000) (Lf 0x2A800000)) (Nd (Lf
  0x2A800000) (Lf 0x2A800000))))) (Nd (Nd (Nd (Nd (Lf 0x2A800000) (Lf 0x2A800000)) (Nd (Lf 0x2A800000) (Lf
  0x2A800000))) (Nd (Nd (Lf 0x2A800000) (Lf 0x2A800000)) (Nd (Lf 0x2A800000) (Lf 0x2A800000)))) (Nd (Nd (Nd
  (Lf 0x2A800000) (Lf 0x2A800000)) (Nd (Lf 0x2A800000) (Lf 0x2A800000))) (Nd (Nd (Lf 0x2A800000) (Lf
  0x2A800000)) (Nd (Lf 0x2A800000) (Lf 0x2A800000)))))).
Definition up_116 : trie N :=
  (Nd (Nd (Nd (Nd (Nd (Lf 0x2A800000) (Lf 0x2A800000)) (Nd (Lf 0x2A800000) (Lf 0x2A800000))) (Nd (Nd (Lf
  0x2A800000) (Lf 0x2A800000)) (Nd (Lf 0x2A800000) (Lf 0x2A800000)))) (Nd (Nd (Nd (Lf 0x2A800000) (Lf
  0x2A800000)) (Nd (Lf 0x2A800000) (Lf 0x2A800000))) (Nd (Nd (Lf 0x2A800000) (Lf 0x2A800000)) (Nd (Lf
  0x2A800000) (Lf 0x2A800000))))) (Nd (Nd (Nd (Nd (Lf 0x2A800000) (Lf 0x2A800000)) (Nd (Lf 0x2A800000) (Lf
  0x2A800000))) (Nd (Nd (Lf 0x2A800000) (Lf 0x2A800000)) (Nd (Lf 0x2A800000) (Lf 0x2A800000)))) (Nd (Nd (Nd
  (Lf 0x2A800000) (Lf 0x2A800000)) (Nd (Lf 0x14400000) (Lf 0x14400000))) (Nd (Nd (Lf 0x14400000) (Lf
  0x14400000)) (Nd (Lf 0x14400000) (Lf 0x2A800000)))))).
Definition up_117 : trie N :=
  (Nd (Nd (Nd (Nd (Nd (Lf 0x2AC00000) (Lf 0x2AC00000)) (Nd (Lf 0x2AC00000) (Lf 0x2AC00000))) (Nd (Nd (Lf
  0x2AC00000) (Lf 0x2AC00000)) (Nd (Lf 0x2AC00000) (Lf 0x2AC00000)))) (Nd (Nd (Nd (Lf 0x2AC00000) (Lf
  0x2AC00000)) (Nd (Lf 0x2AC00000) (Lf 0x2AC00000))) (Nd (Nd (Lf 0x2AC00000) (Lf 0x2AC00000)) (Nd (Lf
  0x2AC00000) (Lf 0x2AC00000))))) (Nd (Nd (Nd (Nd (Lf 0x2AC00000) (Lf 0x2AC00000)) (Nd (Lf 0x2AC00000) (Lf
  0x2AC00000))) (Nd (Nd (Lf 0x2AC00000) (Lf 0x2AC00000)) (Nd (Lf 0x2AC00000) (Lf 0x2AC00000)))) (Nd (Nd (Nd
  (Lf 0x2AC00000) (Lf 0x2AC00000)) (Nd (Lf 0x2AC00000) (Lf 0x2AC00000))) (Nd (Nd (Lf 0x2AC00000) (Lf
  0x2AC00000)) (Nd (Lf 0x2AC00000) (Lf 0x2AC00000)))))).
Definition up_118 : trie N :=
  (Nd (Nd (Nd (Nd (Nd (Lf 0x2AC00000) (Lf 0x2AC00000)) (Nd (Lf 0x2AC00000) (Lf 0x14400000))) (Nd (Nd (Lf
  0x14400000) (Lf 0x14400000)) (Nd (Lf 0x14400000) (Lf 0x14400000)))) (Nd (Nd (Nd (Lf 0x2B000000) (Lf
  0x2B000000)) (Nd (Lf 0x2B000000) (Lf 0x2B000000))) (Nd (Nd (Lf 0x2B000000) (Lf 0x2B000000)) (Nd (Lf
  0x2B000000) (Lf 0x2B000000))))) (Nd (Nd (Nd (Nd (Lf 0x2B000000) (Lf 0x2B000000)) (Nd (Lf 0x2B000000) (Lf
  0x2B000000))) (Nd (Nd (Lf 0x2B000000) (Lf 0x2B000000)) (Nd (Lf 0x2B000000) (Lf 0x2B000000)))) (Nd (Nd (Nd
  (Lf 0x2B000000) (Lf 0x2B000000)) (Nd (Lf 0x2B000000) (Lf 0x2B000000))) (Nd (Nd (Lf 0x2B000000) (Lf
  0x2B000000)) (Nd (Lf 0x2B000000) (Lf 0x2B000000)))))).
Definition up_119 : trie N :=
  (Nd (Nd (Nd (Nd (Nd (Lf 0x2B000000) (Lf 0x2B000000)) (Nd (Lf 0x2B000000) (Lf 0x2B000000))) (Nd (Nd (Lf
  0x2B000000) (Lf 0x2B000000)) (Nd (Lf 0x2B000000) (Lf 0x2B000000)))) (Nd (Nd (Nd (Lf 0x2B000000) (Lf
  0x2B000000)) (Nd (Lf 0x2B000000) (Lf 0x2B000000))) (Nd (Nd (Lf 0x2B000000) (Lf 0x2B000000)) (Nd (Lf
  0x2B000000) (Lf 0x2B000000))))) (Nd (Nd (Nd (Nd (Lf 0x2B000000) (Lf 0x2B000000)) (Nd (Lf 0x2B000000) (Lf
  0x2B000000))) (Nd (Nd (Lf 0x2B000000) (Lf 0x2B000000)) (Nd (Lf 0x2B000000) (Lf 0x2B000000)))) (Nd (Nd (Nd
  (Lf 0x2B000000) (Lf 0x2B000000)) (Nd (Lf 0x2B000000) (Lf 0x2B000000))) (Nd (Nd (Lf 0x2B000000) (Lf
  0x2B000000)) (Nd (Lf 0x2B000000) (Lf 0x2B000000)))))).
Definition up_120 : trie N :=
  (Nd (Nd (Nd (Nd (Nd (Lf 0x2B000000) (Lf 0x2B000000)) (Nd (Lf 0x2B000000) (Lf 0x2B000000))) (Nd (Nd (Lf
  0x2B000000) (Lf 0x2B000000)) (Nd (Lf 0x2B000000) (Lf 0x2B000000)))) (Nd (Nd (Nd (Lf 0x2B000000) (Lf
  0x2B000000)) (Nd (Lf 0x2B000000) (Lf 0x2B000000))) (Nd (Nd (Lf 0x2B000000) (Lf 0x2B000000)) (Nd (Lf
  0x2B000000) (Lf 0x2B000000))))) (Nd (Nd (Nd (Nd (Lf 0x2B000000) (Lf 0x2B000000)) (Nd (Lf 0x2B000000) (Lf
  0x2B000000))) (Nd (Nd (Lf 0x2B000000) (Lf 0x2B000000)) (Nd (Lf 0x2B000000) (Lf 0x2B000000)))) (Nd (Nd (Nd
  (Lf 0x2B000000) (Lf 0x2B000000)) (Nd (Lf 0x14400000) (Lf 0x14400000))) (Nd (Nd (Lf 0x14400000) (Lf
  0x14400000)) (Nd (Lf 0x14400000) (Lf 0x14400000)))))).
Definition up_121 : trie N :=
  (Nd (Nd (Nd (Nd (Nd (Lf 0x11C00000) (Lf 0x11C00000)) (Nd (Lf 0x11C00000) (Lf 0x11C00000))) (Nd (Nd (Lf
  0x11C00000) (Lf 0x11C00000)) (Nd (Lf 0x11C00000) (Lf 0x14400000)))) (Nd (Nd (Nd (Lf 0x11C00000) (Lf
  0x11C00000)) (Nd (Lf 0x11C00000) (Lf 0x11C00000))) (Nd (Nd (Lf 0x11C00000) (Lf 0x11C00000)) (Nd (Lf
  0x11C00000) (Lf 0x11C00000))))) (Nd (Nd (Nd (Nd (Lf 0x11C00000) (Lf 0x11C00000)) (Nd (Lf 0x11C00000) (Lf
  0x11C00000))) (Nd (Nd (Lf 0x11C00000) (Lf 0x11C00000)) (Nd (Lf 0x11C00000) (Lf 0x11C00000)))) (Nd (Nd (Nd
  (Lf 0x11C00000) (Lf 0x11C00000)) (Nd (Lf 0x11C00000) (Lf 0x11C00000))) (Nd (Nd (Lf 0x11C00000) (Lf
  0x11C00000)) (Nd (Lf 0x11C00000) (Lf 0x11C00000)))))).
Definition up_122 : trie N :=
  (Nd (Nd (Nd (Nd (Nd (Lf 0x11C00000) (Lf 0x11C00000)) (Nd (Lf 0x11C00000) (Lf 0x11C00000))) (Nd (Nd (Lf
  0x11C00000) (Lf 0x11C00000)) (Nd (Lf 0x11C00000) (Lf 0x14400000)))) (Nd (Nd (Nd (Lf 0x11C00000) (Lf
  0x14400000)) (Nd (Lf 0x11C00000) (Lf 0x11C00000))) (Nd (Nd (Lf 0x11C00000) (Lf 0x11C00000)) (Nd (Lf
  0x14400000) (Lf 0x14400000))))) (Nd (Nd (Nd (Nd (Lf 0x11C00000) (Lf 0x11C00000)) (Nd (Lf 0x11C00000) (Lf
  0x11C00000))) (Nd (Nd (Lf 0x11C00000) (Lf 0x11C00000)) (Nd (Lf 0x11C00000) (Lf 0x14400000)))) (Nd (Nd (Nd
  (Lf 0x11C00000) (Lf 0x14400000)) (Nd (Lf 0x11C00000) (Lf 0x11C00000))) (Nd (Nd (Lf 0x11C00000) (Lf
  0x11C00000)) (Nd (Lf 0x14400000) (Lf 0x14400000)))))).
Definition up_123 : trie N :=
  (Nd (Nd (Nd (Nd (Nd (Lf 0x11C00000) (Lf 0x11C00000)) (Nd (Lf 0x11C00000) (Lf 0x11C00000))) (Nd (Nd (Lf
  0x11C00000) (Lf 0x11C00000)) (Nd (Lf 0x11C00000) (Lf 0x14400000)))) (Nd (Nd (Nd (Lf 0x11C00000) (Lf
  0x14400000)) (Nd (Lf 0x11C00000) (Lf 0x11C00000))) (Nd (Nd (Lf 0x11C00000) (Lf 0x11C00000)) (Nd (Lf
  0x14400000) (Lf 0x14400000))))) (Nd (Nd (Nd (Nd (Lf 0x11C00000) (Lf 0x11C00000)) (Nd (Lf 0x11C00000) (Lf
  0x11C00000))) (Nd (Nd (Lf 0x11C00000) (Lf 0x11C00000)) (Nd (Lf 0x11C00000) (Lf 0x11C00000)))) (Nd (Nd (Nd
  (Lf 0x11C00000) (Lf 0x11C00000)) (Nd (Lf 0x11C00000) (Lf 0x11C00000))) (Nd (Nd (Lf 0x11C00000) (Lf
  0x11C00000)) (Nd (Lf 0x11C00000) (Lf 0x11C00000)))))).
Definition up_124 : trie N :=
  (Nd (Nd (Nd (Nd (Nd (Lf 0x11C00000) (Lf 0x11C00000)) (Nd (Lf 0x11C00000) (Lf 0x11C00000))) (Nd (Nd (Lf
  0x11C00000) (Lf 0x11C00000)) (Nd (Lf 0x11C00000) (Lf 0x11C00000)))) (Nd (Nd (Nd (Lf 0x11C00000) (Lf
  0x11C00000)) (Nd (Lf 0x11C00000) (Lf 0x11C00000))) (Nd (Nd (Lf 0x11C00000) (Lf 0x11C00000)) (Nd (Lf
  0x11C00000) (Lf 0x14400000))))) (Nd (Nd (Nd (Nd (Lf 0x11C00000) (Lf 0x14400000)) (Nd (Lf 0x11C00000) (Lf
  0x11C00000))) (Nd (Nd (Lf 0x11C00000) (Lf 0x11C00000)) (Nd (Lf 0x14400000) (Lf 0x14400000)))) (Nd (Nd (Nd
  (Lf 0x11C00000) (Lf 0x11C00000)) (Nd (Lf 0x11C00000) (Lf 0x11C00000))) (Nd (Nd (Lf 0x11C00000) (Lf
  0x11C00000)) (Nd (Lf 0x11C00000) (Lf 0x14400000)))))).
Definition up_125 : trie N :=
  (Nd (Nd (Nd (Nd (Nd (Lf 0x11C00000) (Lf 0x14400000)) (Nd (Lf 0x11C00000) (Lf 0x11C00000))) (Nd (Nd (Lf
  0x11C00000) (Lf 0x11C00000)) (Nd (Lf 0x14400000) (Lf 0x14400000)))) (Nd (Nd (Nd (Lf 0x11C00000) (Lf
  0x11C00000)) (Nd (Lf 0x11C00000) (Lf 0x11C00000))) (Nd (Nd (Lf 0x11C00000) (Lf 0x11C00000)) (Nd (Lf
  0x11C00000) (Lf 0x14400000))))) (Nd (Nd (Nd (Nd (Lf 0x11C00000) (Lf 0x11C00000)) (Nd (Lf 0x11C00000) (Lf
  0x11C00000))) (Nd (Nd (Lf 0x11C00000) (Lf 0x11C00000)) (Nd (Lf 0x11C00000) (Lf 0x14400000)))) (Nd (Nd (Nd
  (Lf 0x11C00000) (Lf 0x11C00000)) (Nd (Lf 0x11C00000) (Lf 0x11C00000))) (Nd (Nd (Lf 0x11C00000) (Lf
  0x11C00000)) (Nd (Lf 0x11C00000) (Lf 0x11C00000)))))).
Definition up_126 : trie N :=
  (Nd (Nd (Nd (Nd (Nd (Lf 0x11C00000) (Lf 0x11C00000)) (Nd (Lf 0x11C00000) (Lf 0x11C00000))) (Nd (Nd (Lf
  0x11C00000) (Lf 0x11C00000)) (Nd (Lf 0x11C00000) (Lf 0x11C00000)))) (Nd (Nd (Nd (Lf 0x11C00000) (Lf
  0x11C00000)) (Nd (Lf 0x11C00000) (Lf 0x11C00000))) (Nd (Nd (Lf 0x11C00000) (Lf 0x11C00000)) (Nd (Lf
  0x11C00000) (Lf 0x14400000))))) (Nd (Nd (Nd (Nd (Lf 0x11C00000) (Lf 0x11C00000)) (Nd (Lf 0x11C00000) (Lf
  0x11C00000))) (Nd (Nd (Lf 0x11C00000) (Lf 0x11C00000)) (Nd (Lf 0x11C00000) (Lf 0x11C00000)))) (Nd (Nd (Nd
  (Lf 0x11C00000) (Lf 0x11C00000)) (Nd (Lf 0x11C00000) (Lf 0x11C00000))) (Nd (Nd (Lf 0x11C00000) (Lf
  0x11C00000)) (Nd (Lf 0x11C00000) (Lf 0x11C00000)))))).
Definition up_127 : trie N :=
  (Nd (Nd (Nd (Nd (Nd (Lf 0x11C00000) (Lf 0x11C00000)) (Nd (Lf 0x11C00000) (Lf 0x11C00000))) (Nd (Nd (Lf
  0x11C00000) (Lf 0x11C00000)) (Nd (Lf 0x11C00000) (Lf 0x14400000)))) (Nd (Nd (Nd (Lf 0x11C00000) (Lf
  0x11C00000)) (Nd (Lf 0x11C00000) (Lf 0x11C00000))) (Nd (Nd (Lf 0x11C00000) (Lf 0x11C00000)) (Nd (Lf
  0x11C00000) (Lf 0x11C00000))))) (Nd (Nd (Nd (Nd (Lf 0x11C00000) (Lf 0x11C00000)) (Nd (Lf 0x11C00000) (Lf
  0x11C00000))) (Nd (Nd (Lf 0x11C00000) (Lf 0x11C00000)) (Nd (Lf 0x11C00000) (Lf 0x11C00000)))) (Nd (Nd (Nd
  (Lf 0x11C00000) (Lf 0x11C00000)) (Nd (Lf 0x11C00000) (Lf 0x14400000))) (Nd (Nd (Lf 0x14400000) (Lf
  0x14400000)) (Nd (Lf 0x14400000) (Lf 0x14400000)))))).
Definition up_128 : trie N :=
  (Nd (Nd (Nd (Nd (Nd (Lf 0x14400000) (Lf 0x22000000)) (Nd (Lf 0x22800000) (Lf 0x22800000))) (Nd (Nd (Lf
  0x22800000) (Lf 0x22800000)) (Nd (Lf 0x22800000) (Lf 0x22800000)))) (Nd (Nd (Nd (Lf 0x22000000) (Lf
  0x2B400000)) (Nd (Lf 0x2B400000) (Lf 0x2B400000))) (Nd (Nd (Lf 0x2B400000) (Lf 0x2B400000)) (Nd (Lf
  0x2B400000) (Lf 0x2B400000))))) (Nd (Nd (Nd (Nd (Lf 0x2B400000) (Lf 0x2B400000)) (Nd (Lf 0x28800000) (Lf
  0x28800000))) (Nd (Nd (Lf 0x28800000) (Lf 0x28800000)) (Nd (Lf 0x28800000) (Lf 0x28800000)))) (Nd (Nd (Nd
  (Lf 0x28800000) (Lf 0x28800000)) (Nd (Lf 0x28800000) (Lf 0x28800000))) (Nd (Nd (Lf 0x28800000) (Lf
  0x14400000)) (Nd (Lf 0x14400000) (Lf 0x14400000)))))).
Definition up_129 : trie N :=
  (Nd (Nd (Nd (Nd (Nd (Lf 0x11C00000) (Lf 0x11C00000)) (Nd (Lf 0x11C00000) (Lf 0x11C00000))) (Nd (Nd (Lf
  0x11C00000) (Lf 0x11C00000)) (Nd (Lf 0x11C00000) (Lf 0x11C00000)))) (Nd (Nd (Nd (Lf 0x11C00000) (Lf
  0x11C00000)) (Nd (Lf 0x11C00000) (Lf 0x11C00000))) (Nd (Nd (Lf 0x11C00000) (Lf 0x11C00000)) (Nd (Lf
  0x11C00000) (Lf 0x11C00000))))) (Nd (Nd (Nd (Nd (Lf 0x11C00000) (Lf 0x11C00000)) (Nd (Lf 0x11C00000) (Lf
  0x11C00000))) (Nd (Nd (Lf 0x11C00000) (Lf 0x14400000)) (Nd (Lf 0x14400000) (Lf 0x14400000)))) (Nd (Nd (Nd
  (Lf 0x14400000) (Lf 0x14400000)) (Nd (Lf 0x14400000) (Lf 0x14400000))) (Nd (Nd (Lf 0x14400000) (Lf
  0x14400000)) (Nd (Lf 0x14400000) (Lf 0x14400000)))))).
Definition up_130 : trie N :=
  (Nd (Nd (Nd (Nd (Nd (Lf 0x11C00000) (Lf 0x11C00000)) (Nd (Lf 0x11C00000) (Lf 0x11C00000))) (Nd (Nd (Lf
  0x11C00000) (Lf 0x11C00000)) (Nd (Lf 0x11C00000) (Lf 0x11C00000)))) (Nd (Nd (Nd (Lf 0x11C00000) (Lf
  0x11C00000)) (Nd (Lf 0x11C00000) (Lf 0x11C00000))) (Nd (Nd (Lf 0x11C00000) (Lf 0x22000000)) (Nd (Lf
  0x22800000) (Lf 0x11C00000))))) (Nd (Nd (Nd (Nd (Lf 0x11C00000) (Lf 0x11C00000)) (Nd (Lf 0x11C00000) (Lf
  0x11C00000))) (Nd (Nd (Lf 0x11C00000) (Lf 0x11C00000)) (Nd (Lf 0x11C00000) (Lf 0x14400000)))) (Nd (Nd (Nd
  (Lf 0x14400000) (Lf 0x14400000)) (Nd (Lf 0x14400000) (Lf 0x14400000))) (Nd (Nd (Lf 0x14400000) (Lf
  0x14400000)) (Nd (Lf 0x14400000) (Lf 0x14400000)))))).
Definition up_131 : trie N :=
  (Nd (Nd (Nd (Nd (Nd (Lf 0x1400000) (Lf 0x11C00000)) (Nd (Lf 0x11C00000) (Lf 0x11C00000))) (Nd (Nd (Lf
  0x11C00000) (Lf 0x11C00000)) (Nd (Lf 0x11C00000) (Lf 0x11C00000)))) (Nd (Nd (Nd (Lf 0x11C00000) (Lf
  0x11C00000)) (Nd (Lf 0x11C00000) (Lf 0x11C00000))) (Nd (Nd (Lf 0x11C00000) (Lf 0x11C00000)) (Nd (Lf
  0x11C00000) (Lf 0x11C00000))))) (Nd (Nd (Nd (Nd (Lf 0x11C00000) (Lf 0x11C00000)) (Nd (Lf 0x11C00000) (Lf
  0x11C00000))) (Nd (Nd (Lf 0x11C00000) (Lf 0x11C00000)) (Nd (Lf 0x11C00000) (Lf 0x11C00000)))) (Nd (Nd (Nd
  (Lf 0x11C00000) (Lf 0x11C00000)) (Nd (Lf 0x11C00000) (Lf 0x3000000))) (Nd (Nd (Lf 0x3400000) (Lf
  0x14400000)) (Nd (Lf 0x14400000) (Lf 0x14400000)))))).
Definition up_132 : trie N :=
  (Nd (Nd (Nd (Nd (Nd (Lf 0x11C00000) (Lf 0x11C00000)) (Nd (Lf 0x11C00000) (Lf 0x11C00000))) (Nd (Nd (Lf
  0x11C00000) (Lf 0x11C00000)) (Nd (Lf 0x11C00000) (Lf 0x11C00000)))) (Nd (Nd (Nd (Lf 0x11C00000) (Lf
  0x11C00000)) (Nd (Lf 0x11C00000) (Lf 0x22000000))) (Nd (Nd (Lf 0x22000000) (Lf 0x22000000)) (Nd (Lf
  0x2B800000) (Lf 0x2B800000))))) (Nd (Nd (Nd (Nd (Lf 0x2B800000) (Lf 0x14400000)) (Nd (Lf 0x14400000) (Lf
  0x14400000))) (Nd (Nd (Lf 0x14400000) (Lf 0x14400000)) (Nd (Lf 0x14400000) (Lf 0x14400000)))) (Nd (Nd (Nd
  (Lf 0x14400000) (Lf 0x14400000)) (Nd (Lf 0x14400000) (Lf 0x14400000))) (Nd (Nd (Lf 0x14400000) (Lf
  0x14400000)) (Nd (Lf 0x14400000) (Lf 0x14400000)))))).
Definition up_133 : trie N :=
  (Nd (Nd (Nd (Nd (Nd (Lf 0x11C00000) (Lf 0x11C00000)) (Nd (Lf 0x11C00000) (Lf 0x11C00000))) (Nd (Nd (Lf
  0x11C00000) (Lf 0x11C00000)) (Nd (Lf 0x11C00000) (Lf 0x11C00000)))) (Nd (Nd (Nd (Lf 0x11C00000) (Lf
  0x11C00000)) (Nd (Lf 0x11C00000) (Lf 0x11C00000))) (Nd (Nd (Lf 0x11C00000) (Lf 0x14400000)) (Nd (Lf
  0x11C00000) (Lf 0x11C00000))))) (Nd (Nd (Nd (Nd (Lf 0x11C00000) (Lf 0x11C00000)) (Nd (Lf 0x19C00000) (Lf
  0x19C00000))) (Nd (Nd (Lf 0x19000000) (Lf 0x14400000)) (Nd (Lf 0x14400000) (Lf 0x14400000)))) (Nd (Nd (Nd
  (Lf 0x14400000) (Lf 0x14400000)) (Nd (Lf 0x14400000) (Lf 0x14400000))) (Nd (Nd (Lf 0x14400000) (Lf
  0x14400000)) (Nd (Lf 0x14400000) (Lf 0x14400000)))))).
Definition up_134 : trie N :=
  (Nd (Nd (Nd (Nd (Nd (Lf 0x11C00000) (Lf 0x11C00000)) (Nd (Lf 0x11C00000) (Lf 0x11C00000))) (Nd (Nd (Lf
  0x11C00000) (Lf 0x11C00000)) (Nd (Lf 0x11C00000) (Lf 0x11C00000)))) (Nd (Nd (Nd (Lf 0x11C00000) (Lf
  0x11C00000)) (Nd (Lf 0x11C00000) (Lf 0x11C00000))) (Nd (Nd (Lf 0x11C00000) (Lf 0x11C00000)) (Nd (Lf
  0x11C00000) (Lf 0x11C00000))))) (Nd (Nd (Nd (Nd (Lf 0x11C00000) (Lf 0x11C00000)) (Nd (Lf 0x19C00000) (Lf
  0x19C00000))) (Nd (Nd (Lf 0x19000000) (Lf 0x22000000)) (Nd (Lf 0x22000000) (Lf 0x14400000)))) (Nd (Nd (Nd
  (Lf 0x14400000) (Lf 0x14400000)) (Nd (Lf 0x14400000) (Lf 0x14400000))) (Nd (Nd (Lf 0x14400000) (Lf
  0x14400000)) (Nd (Lf 0x14400000) (Lf 0x14400000)))))).
Definition up_135 : trie N :=
  (Nd (Nd (Nd (Nd (Nd (Lf 0x11C00000) (Lf 0x11C00000)) (Nd (Lf 0x11C00000) (Lf 0x11C00000))) (Nd (Nd (Lf
  0x11C00000) (Lf 0x11C00000)) (Nd (Lf 0x11C00000) (Lf 0x11C00000)))) (Nd (Nd (Nd (Lf 0x11C00000) (Lf
  0x11C00000)) (Nd (Lf 0x11C00000) (Lf 0x11C00000))) (Nd (Nd (Lf 0x11C00000) (Lf 0x11C00000)) (Nd (Lf
  0x11C00000) (Lf 0x11C00000))))) (Nd (Nd (Nd (Nd (Lf 0x11C00000) (Lf 0x11C00000)) (Nd (Lf 0x19C00000) (Lf
  0x19C00000))) (Nd (Nd (Lf 0x14400000) (Lf 0x14400000)) (Nd (Lf 0x14400000) (Lf 0x14400000)))) (Nd (Nd (Nd
  (Lf 0x14400000) (Lf 0x14400000)) (Nd (Lf 0x14400000) (Lf 0x14400000))) (Nd (Nd (Lf 0x14400000) (Lf
  0x14400000)) (Nd (Lf 0x14400000) (Lf 0x14400000)))))).
Definition up_136 : trie N :=
  (Nd (Nd (Nd (Nd (Nd (Lf 0x11C00000) (Lf 0x11C00000)) (Nd (Lf 0x11C00000) (Lf 0x11C00000))) (Nd (Nd (Lf
  0x11C00000) (Lf 0x11C00000)) (Nd (Lf 0x11C00000) (Lf 0x11C00000)))) (Nd (Nd (Nd (Lf 0x11C00000) (Lf
  0x11C00000)) (Nd (Lf 0x11C00000) (Lf 0x11C00000))) (Nd (Nd (Lf 0x11C00000) (Lf 0x14400000)) (Nd (Lf
  0x11C00000) (Lf 0x11C00000))))) (Nd (Nd (Nd (Nd (Lf 0x11C00000) (Lf 0x14400000)) (Nd (Lf 0x19C00000) (Lf
  0x19C00000))) (Nd (Nd (Lf 0x14400000) (Lf 0x14400000)) (Nd (Lf 0x14400000) (Lf 0x14400000)))) (Nd (Nd (Nd
  (Lf 0x14400000) (Lf 0x14400000)) (Nd (Lf 0x14400000) (Lf 0x14400000))) (Nd (Nd (Lf 0x14400000) (Lf
  0x14400000)) (Nd (Lf 0x14400000) (Lf 0x14400000)))))).
Definition up_137 : trie N :=
  (Nd (Nd (Nd (Nd (Nd (Lf 0x11C00000) (Lf 0x11C00000)) (Nd (Lf 0x11C00000) (Lf 0x11C00000))) (Nd (Nd (Lf
  0x11C00000) (Lf 0x11C00000)) (Nd (Lf 0x11C00000) (Lf 0x11C00000)))) (Nd (Nd (Nd (Lf 0x11C00000) (Lf
  0x11C00000)) (Nd (Lf 0x11C00000) (Lf 0x11C00000))) (Nd (Nd (Lf 0x11C00000) (Lf 0x11C00000)) (Nd (Lf
  0x11C00000) (Lf 0x11C00000))))) (Nd (Nd (Nd (Nd (Lf 0x11C00000) (Lf 0x11C00000)) (Nd (Lf 0x11C00000) (Lf
  0x11C00000))) (Nd (Nd (Lf 0x2BC00000) (Lf 0x2BC00000)) (Nd (Lf 0x27400000) (Lf 0x19C00000)))) (Nd (Nd (Nd
  (Lf 0x19C00000) (Lf 0x19C00000)) (Nd (Lf 0x19C00000) (Lf 0x19C00000))) (Nd (Nd (Lf 0x19C00000) (Lf
  0x19C00000)) (Nd (Lf 0x27400000) (Lf 0x27400000)))))).
Definition up_138 : trie N :=
  (Nd (Nd (Nd (Nd (Nd (Lf 0x27400000) (Lf 0x27400000)) (Nd (Lf 0x27400000) (Lf 0x27400000))) (Nd (Nd (Lf
  0x27400000) (Lf 0x27400000)) (Nd (Lf 0x19C00000) (Lf 0x27400000)))) (Nd (Nd (Nd (Lf 0x27400000) (Lf
  0x19C00000)) (Nd (Lf 0x19C00000) (Lf 0x19C00000))) (Nd (Nd (Lf 0x19C00000) (Lf 0x19C00000)) (Nd (Lf
  0x19C00000) (Lf 0x19C00000))))) (Nd (Nd (Nd (Nd (Lf 0x19C00000) (Lf 0x19C00000)) (Nd (Lf 0x19000000) (Lf
  0x19C00000))) (Nd (Nd (Lf 0x22000000) (Lf 0x22000000)) (Nd (Lf 0x22000000) (Lf 0x18C00000)))) (Nd (Nd (Nd
  (Lf 0x22000000) (Lf 0x22000000)) (Nd (Lf 0x22000000) (Lf 0x2400000))) (Nd (Nd (Lf 0x11C00000) (Lf
  0x19000000)) (Nd (Lf 0x14400000) (Lf 0x14400000)))))).
Definition up_139 : trie N :=
  (Nd (Nd (Nd (Nd (Nd (Lf 0x27C00000) (Lf 0x2A000000)) (Nd (Lf 0x2A000000) (Lf 0x2A000000))) (Nd (Nd (Lf
  0x2A000000) (Lf 0x2A000000)) (Nd (Lf 0x2A000000) (Lf 0x2A000000)))) (Nd (Nd (Nd (Lf 0x2A000000) (Lf
  0x2A000000)) (Nd (Lf 0x14400000) (Lf 0x14400000))) (Nd (Nd (Lf 0x14400000) (Lf 0x14400000)) (Nd (Lf
  0x14400000) (Lf 0x14400000))))) (Nd (Nd (Nd (Nd (Lf 0x2C000000) (Lf 0x2C000000)) (Nd (Lf 0x2C000000) (Lf
  0x2C000000))) (Nd (Nd (Lf 0x2C000000) (Lf 0x2C000000)) (Nd (Lf 0x2C000000) (Lf 0x2C000000)))) (Nd (Nd (Nd
  (Lf 0x2C000000) (Lf 0x2C000000)) (Nd (Lf 0x14400000) (Lf 0x14400000))) (Nd (Nd (Lf 0x14400000) (Lf
  0x14400000)) (Nd (Lf 0x14400000) (Lf 0x14400000)))))).
Definition up_140 : trie N :=
  (Nd (Nd (Nd (Nd (Nd (Lf 0x2800000) (Lf 0x1800000)) (Nd (Lf 0x1800000) (Lf 0x1800000))) (Nd (Nd (Lf
  0x1800000) (Lf 0x2800000)) (Nd (Lf 0x22C00000) (Lf 0x2800000)))) (Nd (Nd (Nd (Lf 0x1800000) (Lf 0x1800000))
  (Nd (Lf 0x2800000) (Lf 0x19C00000))) (Nd (Nd (Lf 0x19C00000) (Lf 0x19C00000)) (Nd (Lf 0x1400000) (Lf
  0x14400000))))) (Nd (Nd (Nd (Nd (Lf 0x27C00000) (Lf 0x29800000)) (Nd (Lf 0x29800000) (Lf 0x29800000))) (Nd
  (Nd (Lf 0x29800000) (Lf 0x29800000)) (Nd (Lf 0x29800000) (Lf 0x29800000)))) (Nd (Nd (Nd (Lf 0x29800000) (Lf
  0x29800000)) (Nd (Lf 0x14400000) (Lf 0x14400000))) (Nd (Nd (Lf 0x14400000) (Lf 0x14400000)) (Nd (Lf
  0x14400000) (Lf 0x14400000)))))).
Definition up_141 : trie N :=
  (Nd (Nd (Nd (Nd (Nd (Lf 0x11C00000) (Lf 0x11C00000)) (Nd (Lf 0x11C00000) (Lf 0x18400000))) (Nd (Nd (Lf
  0x11C00000) (Lf 0x11C00000)) (Nd (Lf 0x11C00000) (Lf 0x11C00000)))) (Nd (Nd (Nd (Lf 0x11C00000) (Lf
  0x11C00000)) (Nd (Lf 0x11C00000) (Lf 0x11C00000))) (Nd (Nd (Lf 0x11C00000) (Lf 0x11C00000)) (Nd (Lf
  0x11C00000) (Lf 0x11C00000))))) (Nd (Nd (Nd (Nd (Lf 0x11C00000) (Lf 0x11C00000)) (Nd (Lf 0x11C00000) (Lf
  0x11C00000))) (Nd (Nd (Lf 0x11C00000) (Lf 0x11C00000)) (Nd (Lf 0x11C00000) (Lf 0x11C00000)))) (Nd (Nd (Nd
  (Lf 0x11C00000) (Lf 0x11C00000)) (Nd (Lf 0x11C00000) (Lf 0x11C00000))) (Nd (Nd (Lf 0x11C00000) (Lf
  0x11C00000)) (Nd (Lf 0x11C00000) (Lf 0x11C00000)))))).
Definition up_142 : trie N :=
  (Nd (Nd (Nd (Nd (Nd (Lf 0x11C00000) (Lf 0x11C00000)) (Nd (Lf 0x11C00000) (Lf 0x11C00000))) (Nd (Nd (Lf
  0x11C00000) (Lf 0x11C00000)) (Nd (Lf 0x11C00000) (Lf 0x11C00000)))) (Nd (Nd (Nd (Lf 0x11C00000) (Lf
  0x11C00000)) (Nd (Lf 0x11C00000) (Lf 0x11C00000))) (Nd (Nd (Lf 0x11C00000) (Lf 0x11C00000)) (Nd (Lf
  0x11C00000) (Lf 0x11C00000))))) (Nd (Nd (Nd (Nd (Lf 0x11C00000) (Lf 0x11C00000)) (Nd (Lf 0x11C00000) (Lf
  0x11C00000))) (Nd (Nd (Lf 0x11C00000) (Lf 0x11C00000)) (Nd (Lf 0x11C00000) (Lf 0x11C00000)))) (Nd (Nd (Nd
  (Lf 0x14400000) (Lf 0x14400000)) (Nd (Lf 0x14400000) (Lf 0x14400000))) (Nd (Nd (Lf 0x14400000) (Lf
  0x14400000)) (Nd (Lf 0x14400000) (Lf 0x14400000)))))).
Definition up_143 : trie N :=
  (Nd (Nd (Nd (Nd (Nd (Lf 0x11C00000) (Lf 0x11C00000)) (Nd (Lf 0x11C00000) (Lf 0x11C00000))) (Nd (Nd (Lf
  0x11C00000) (Lf 0x11C00000)) (Nd (Lf 0x11C00000) (Lf 0x11C00000)))) (Nd (Nd (Nd (Lf 0x11C00000) (Lf
  0x19000000)) (Nd (Lf 0x14400000) (Lf 0x14400000))) (Nd (Nd (Lf 0x14400000) (Lf 0x14400000)) (Nd (Lf
  0x14400000) (Lf 0x14400000))))) (Nd (Nd (Nd (Nd (Lf 0x14400000) (Lf 0x14400000)) (Nd (Lf 0x14400000) (Lf
  0x14400000))) (Nd (Nd (Lf 0x14400000) (Lf 0x14400000)) (Nd (Lf 0x14400000) (Lf 0x14400000)))) (Nd (Nd (Nd
  (Lf 0x14400000) (Lf 0x14400000)) (Nd (Lf 0x14400000) (Lf 0x14400000))) (Nd (Nd (Lf 0x14400000) (Lf
  0x14400000)) (Nd (Lf 0x14400000) (Lf 0x14400000)))))).
Definition up_144 : trie N :=
  (Nd (Nd (Nd (Nd (Nd (Lf 0x11C00000) (Lf 0x11C00000)) (Nd (Lf 0x11C00000) (Lf 0x11C00000))) (Nd (Nd (Lf
  0x11C00000) (Lf 0x11C00000)) (Nd (Lf 0x11C00000) (Lf 0x11C00000)))) (Nd (Nd (Nd (Lf 0x11C00000) (Lf
  0x11C00000)) (Nd (Lf 0x11C00000) (Lf 0x11C00000))) (Nd (Nd (Lf 0x11C00000) (Lf 0x11C00000)) (Nd (Lf
  0x11C00000) (Lf 0x11C00000))))) (Nd (Nd (Nd (Nd (Lf 0x11C00000) (Lf 0x11C00000)) (Nd (Lf 0x11C00000) (Lf
  0x11C00000))) (Nd (Nd (Lf 0x11C00000) (Lf 0x11C00000)) (Nd (Lf 0x11C00000) (Lf 0x11C00000)))) (Nd (Nd (Nd
  (Lf 0x11C00000) (Lf 0x11C00000)) (Nd (Lf 0x11C00000) (Lf 0x11C00000))) (Nd (Nd (Lf 0x11C00000) (Lf
  0x14400000)) (Nd (Lf 0x14400000) (Lf 0x14400000)))))).
Definition up_145 : trie N :=
  (Nd (Nd (Nd (Nd (Nd (Lf 0x19C00000) (Lf 0x19C00000)) (Nd (Lf 0x19C00000) (Lf 0x27400000))) (Nd (Nd (Lf
  0x27400000) (Lf 0x27400000)) (Nd (Lf 0x27400000) (Lf 0x19C00000)))) (Nd (Nd (Nd (Lf 0x19C00000) (Lf
  0x2C400000)) (Nd (Lf 0x2C400000) (Lf 0x2C400000))) (Nd (Nd (Lf 0x14400000) (Lf 0x14400000)) (Nd (Lf
  0x14400000) (Lf 0x14400000))))) (Nd (Nd (Nd (Nd (Lf 0x27400000) (Lf 0x27400000)) (Nd (Lf 0x19C00000) (Lf
  0x27400000))) (Nd (Nd (Lf 0x27400000) (Lf 0x27400000)) (Nd (Lf 0x27400000) (Lf 0x27400000)))) (Nd (Nd (Nd
  (Lf 0x27400000) (Lf 0x19000000)) (Nd (Lf 0x19000000) (Lf 0x19000000))) (Nd (Nd (Lf 0x14400000) (Lf
  0x14400000)) (Nd (Lf 0x14400000) (Lf 0x14400000)))))).
Definition up_146 : trie N :=
  (Nd (Nd (Nd (Nd (Nd (Lf 0x7400000) (Lf 0x14400000)) (Nd (Lf 0x14400000) (Lf 0x14400000))) (Nd (Nd (Lf
  0x1800000) (Lf 0x1800000)) (Nd (Lf 0x27C00000) (Lf 0x28000000)))) (Nd (Nd (Nd (Lf 0x28000000) (Lf
  0x28000000)) (Nd (Lf 0x28000000) (Lf 0x28000000))) (Nd (Nd (Lf 0x28000000) (Lf 0x28000000)) (Nd (Lf
  0x28000000) (Lf 0x28000000))))) (Nd (Nd (Nd (Nd (Lf 0x11C00000) (Lf 0x11C00000)) (Nd (Lf 0x11C00000) (Lf
  0x11C00000))) (Nd (Nd (Lf 0x11C00000) (Lf 0x11C00000)) (Nd (Lf 0x11C00000) (Lf 0x11C00000)))) (Nd (Nd (Nd
  (Lf 0x11C00000) (Lf 0x11C00000)) (Nd (Lf 0x11C00000) (Lf 0x11C00000))) (Nd (Nd (Lf 0x11C00000) (Lf
  0x11C00000)) (Nd (Lf 0x11C00000) (Lf 0x11C00000)))))).
Definition up_147 : trie N :=
  (Nd (Nd (Nd (Nd (Nd (Lf 0x11C00000) (Lf 0x11C00000)) (Nd (Lf 0x11C00000) (Lf 0x11C00000))) (Nd (Nd (Lf
  0x11C00000) (Lf 0x11C00000)) (Nd (Lf 0x11C00000) (Lf 0x11C00000)))) (Nd (Nd (Nd (Lf 0x11C00000) (Lf
  0x11C00000)) (Nd (Lf 0x11C00000) (Lf 0x11C00000))) (Nd (Nd (Lf 0x11C00000) (Lf 0x11C00000)) (Nd (Lf
  0x14400000) (Lf 0x14400000))))) (Nd (Nd (Nd (Nd (Lf 0x11C00000) (Lf 0x11C00000)) (Nd (Lf 0x11C00000) (Lf
  0x11C00000))) (Nd (Nd (Lf 0x11C00000) (Lf 0x14400000)) (Nd (Lf 0x14400000) (Lf 0x14400000)))) (Nd (Nd (Nd
  (Lf 0x14400000) (Lf 0x14400000)) (Nd (Lf 0x14400000) (Lf 0x14400000))) (Nd (Nd (Lf 0x14400000) (Lf
  0x14400000)) (Nd (Lf 0x14400000) (Lf 0x14400000)))))).
Definition up_148 : trie N :=
  (Nd (Nd (Nd (Nd (Nd (Lf 0x7400000) (Lf 0x7400000)) (Nd (Lf 0x7400000) (Lf 0x7400000))) (Nd (Nd (Lf
  0x7400000) (Lf 0x7400000)) (Nd (Lf 0x7400000) (Lf 0x7400000)))) (Nd (Nd (Nd (Lf 0x7400000) (Lf 0x7400000))
  (Nd (Lf 0x7400000) (Lf 0x7400000))) (Nd (Nd (Lf 0x7400000) (Lf 0x7400000)) (Nd (Lf 0x7400000) (Lf
  0x7400000))))) (Nd (Nd (Nd (Nd (Lf 0x7400000) (Lf 0x7400000)) (Nd (Lf 0x7400000) (Lf 0x7400000))) (Nd (Nd
  (Lf 0x7400000) (Lf 0x7400000)) (Nd (Lf 0x7400000) (Lf 0x7400000)))) (Nd (Nd (Nd (Lf 0x7400000) (Lf
  0x7400000)) (Nd (Lf 0x7400000) (Lf 0x7400000))) (Nd (Nd (Lf 0x7400000) (Lf 0x7400000)) (Nd (Lf 0x7400000)
  (Lf 0x7400000)))))).
Definition up_149 : trie N :=
  (Nd (Nd (Nd (Nd (Nd (Lf 0xA800000) (Lf 0xA800000)) (Nd (Lf 0xA800000) (Lf 0xA800000))) (Nd (Nd (Lf
  0xA800000) (Lf 0xA800000)) (Nd (Lf 0xA800000) (Lf 0xA800000)))) (Nd (Nd (Nd (Lf 0xA800000) (Lf 0xA800000))
  (Nd (Lf 0xA800000) (Lf 0xA800000))) (Nd (Nd (Lf 0xA800000) (Lf 0xA800000)) (Nd (Lf 0xA800000) (Lf
  0xA800000))))) (Nd (Nd (Nd (Nd (Lf 0xA800000) (Lf 0xA800000)) (Nd (Lf 0xA800000) (Lf 0xA800000))) (Nd (Nd
  (Lf 0xA800000) (Lf 0xA800000)) (Nd (Lf 0xA800000) (Lf 0xA800000)))) (Nd (Nd (Nd (Lf 0xA800000) (Lf
  0xA800000)) (Nd (Lf 0xA800000) (Lf 0xA800000))) (Nd (Nd (Lf 0xA800000) (Lf 0xA800000)) (Nd (Lf 0xA800000)
  (Lf 0xA800000)))))).
Definition up_150 : trie N :=
  (Nd (Nd (Nd (Nd (Nd (Lf 0xA800000) (Lf 0xA800000)) (Nd (Lf 0xA800000) (Lf 0xA800000))) (Nd (Nd (Lf
  0xA800000) (Lf 0xA800000)) (Nd (Lf 0xA800000) (Lf 0xA800000)))) (Nd (Nd (Nd (Lf 0xA800000) (Lf 0xA800000))
  (Nd (Lf 0xA800000) (Lf 0xA800000))) (Nd (Nd (Lf 0x17C1039D) (Lf 0x17C1039E)) (Nd (Lf 0x17C1039F) (Lf
  0x18400000))))) (Nd (Nd (Nd (Nd (Lf 0x17C103A0) (Lf 0x17C103A1)) (Nd (Lf 0x17C103A2) (Lf 0x17C103A3))) (Nd
  (Nd (Lf 0x17C103A4) (Lf 0x17C103A5)) (Nd (Lf 0x17C103A6) (Lf 0x17C103A7)))) (Nd (Nd (Nd (Lf 0x17C103A8) (Lf
  0x17C103A9)) (Nd (Lf 0x17C103AA) (Lf 0x18400000))) (Nd (Nd (Lf 0x17C103AB) (Lf 0x17C103AC)) (Nd (Lf
  0x17C103AD) (Lf 0x17C103AE)))))).
Definition up_151 : trie N :=
  (Nd (Nd (Nd (Nd (Nd (Lf 0x17C103AF) (Lf 0x17C103B0)) (Nd (Lf 0x17C103B1) (Lf 0x17C103B2))) (Nd (Nd (Lf
  0x17C103B3) (Lf 0x17C103B4)) (Nd (Lf 0x17C103B5) (Lf 0x17C103B6)))) (Nd (Nd (Nd (Lf 0x17C103B7) (Lf
  0x17C103B8)) (Nd (Lf 0x17C103B9) (Lf 0x17C103BA))) (Nd (Nd (Lf 0x17C103BB) (Lf 0x17C103BC)) (Nd (Lf
  0x18400000) (Lf 0x17C103BD))))) (Nd (Nd (Nd (Nd (Lf 0x17C103BE) (Lf 0x17C103BF)) (Nd (Lf 0x17C103C0) (Lf
  0x17C103C1))) (Nd (Nd (Lf 0x17C103C2) (Lf 0x17C103C3)) (Nd (Lf 0x17C103C4) (Lf 0x17C103C5)))) (Nd (Nd (Nd
  (Lf 0x17C103C6) (Lf 0x17C103C7)) (Nd (Lf 0x17C103C8) (Lf 0x17C103C9))) (Nd (Nd (Lf 0x17C103CA) (Lf
  0x17C103CB)) (Nd (Lf 0x17C103CC) (Lf 0x17C103CD)))))).
Definition up_152 : trie N :=
  (Nd (Nd (Nd (Nd (Nd (Lf 0x17C103CE) (Lf 0x17C103CF)) (Nd (Lf 0x7C103D0) (Lf 0x7C103D1))) (Nd (Nd (Lf
  0x7C103D2) (Lf 0x7C103D3)) (Nd (Lf 0x7C103D4) (Lf 0x7C103D5)))) (Nd (Nd (Nd (Lf 0x7C103D6) (Lf 0x7C103D7))
  (Nd (Lf 0x7C103D8) (Lf 0xA800000))) (Nd (Nd (Lf 0x14400000) (Lf 0x14400000)) (Nd (Lf 0x14400000) (Lf
  0x14400000))))) (Nd (Nd (Nd (Nd (Lf 0x14400000) (Lf 0x14400000)) (Nd (Lf 0x14400000) (Lf 0x14400000))) (Nd
  (Nd (Lf 0x14400000) (Lf 0x14400000)) (Nd (Lf 0x14400000) (Lf 0x14400000)))) (Nd (Nd (Nd (Lf 0x14400000) (Lf
  0x14400000)) (Nd (Lf 0x14400000) (Lf 0x14400000))) (Nd (Nd (Lf 0x14400000) (Lf 0x14400000)) (Nd (Lf
  0x14400000) (Lf 0x14400000)))))).
Definition up_153 : trie N :=
  (Nd (Nd (Nd (Nd (Nd (Lf 0xB4203D9) (Lf 0xB8203DB)) (Nd (Lf 0xB4203DD) (Lf 0xB8203DF))) (Nd (Nd (Lf
  0xB4203E1) (Lf 0xB8203E3)) (Nd (Lf 0xB4203E5) (Lf 0xB8203E7)))) (Nd (Nd (Nd (Lf 0xB4203E9) (Lf 0xB8203EB))
  (Nd (Lf 0xB4203ED) (Lf 0xB8203EF))) (Nd (Nd (Lf 0xB4203F1) (Lf 0xB8203F3)) (Nd (Lf 0xB4203F5) (Lf
  0xB8203F7))))) (Nd (Nd (Nd (Nd (Lf 0xB4203F9) (Lf 0xB8203FB)) (Nd (Lf 0xB4203FD) (Lf 0xB8203FF))) (Nd (Nd
  (Lf 0xB420401) (Lf 0xB820403)) (Nd (Lf 0xB420405) (Lf 0xB820407)))) (Nd (Nd (Nd (Lf 0xB420409) (Lf
  0xB82040B)) (Nd (Lf 0xB42040D) (Lf 0xB82040F))) (Nd (Nd (Lf 0xB420411) (Lf 0xB820413)) (Nd (Lf 0xB420415)
  (Lf 0xB820417)))))).
Definition up_154 : trie N :=
  (Nd (Nd (Nd (Nd (Nd (Lf 0xB420419) (Lf 0xB82041B)) (Nd (Lf 0xB42041D) (Lf 0xB82041F))) (Nd (Nd (Lf
  0xB420421) (Lf 0xB820423)) (Nd (Lf 0xB420425) (Lf 0xB820427)))) (Nd (Nd (Nd (Lf 0xB420429) (Lf 0xB82042B))
  (Nd (Lf 0xB42042D) (Lf 0xB82042F))) (Nd (Nd (Lf 0xB420431) (Lf 0xB820433)) (Nd (Lf 0xB420435) (Lf
  0xB820437))))) (Nd (Nd (Nd (Nd (Lf 0xB420439) (Lf 0xB82043B)) (Nd (Lf 0xB42043D) (Lf 0xB82043F))) (Nd (Nd
  (Lf 0xB420441) (Lf 0xB820443)) (Nd (Lf 0xB420445) (Lf 0xB820447)))) (Nd (Nd (Nd (Lf 0xB420449) (Lf
  0xB82044B)) (Nd (Lf 0xB42044D) (Lf 0xB82044F))) (Nd (Nd (Lf 0xB420451) (Lf 0xB820453)) (Nd (Lf 0xB420455)
  (Lf 0xB820457)))))).
Definition up_155 : trie N :=
  (Nd (Nd (Nd (Nd (Nd (Lf 0xB420459) (Lf 0xB82045B)) (Nd (Lf 0xB42045D) (Lf 0xB82045F))) (Nd (Nd (Lf
  0xB420461) (Lf 0xB820463)) (Nd (Lf 0xB420465) (Lf 0xB820467)))) (Nd (Nd (Nd (Lf 0xB420469) (Lf 0xB82046B))
  (Nd (Lf 0xB42046D) (Lf 0xB82046F))) (Nd (Nd (Lf 0xB420471) (Lf 0xB820473)) (Nd (Lf 0xB420475) (Lf
  0xB820477))))) (Nd (Nd (Nd (Nd (Lf 0xB420479) (Lf 0xB82047B)) (Nd (Lf 0xB42047D) (Lf 0xB82047F))) (Nd (Nd
  (Lf 0xB420481) (Lf 0xB820483)) (Nd (Lf 0xB420485) (Lf 0xB820487)))) (Nd (Nd (Nd (Lf 0xB420489) (Lf
  0xB82048B)) (Nd (Lf 0xB42048D) (Lf 0xB82048F))) (Nd (Nd (Lf 0xB420491) (Lf 0xB820493)) (Nd (Lf 0xB420495)
  (Lf 0xB820497)))))).
Definition up_156 : trie N :=
  (Nd (Nd (Nd (Nd (Nd (Lf 0xB420499) (Lf 0xB82049B)) (Nd (Lf 0xB42049D) (Lf 0xB82049F))) (Nd (Nd (Lf
  0xB4204A1) (Lf 0xB8204A3)) (Nd (Lf 0xB4204A5) (Lf 0xB8204A7)))) (Nd (Nd (Nd (Lf 0xB4204A9) (Lf 0xB8204AB))
  (Nd (Lf 0xB4204AD) (Lf 0xB8204AF))) (Nd (Nd (Lf 0xB4204B1) (Lf 0xB8204B3)) (Nd (Lf 0xB4204B5) (Lf
  0xB8204B7))))) (Nd (Nd (Nd (Nd (Lf 0xB4204B9) (Lf 0xB8204BB)) (Nd (Lf 0xB4204BD) (Lf 0xB8204BF))) (Nd (Nd
  (Lf 0xB4204C1) (Lf 0xB8204C3)) (Nd (Lf 0xB4204C5) (Lf 0xB8204C7)))) (Nd (Nd (Nd (Lf 0xB4204C9) (Lf
  0xB8204CB)) (Nd (Lf 0xB4204CD) (Lf 0xB8204CF))) (Nd (Nd (Lf 0xB4204D1) (Lf 0xB8204D3)) (Nd (Lf 0xB4204D5)
  (Lf 0xB8204D7)))))).
Definition up_157 : trie N :=
  (Nd (Nd (Nd (Nd (Nd (Lf 0xB4204D9) (Lf 0xB8204DB)) (Nd (Lf 0xB4204DD) (Lf 0xB8204DF))) (Nd (Nd (Lf
  0xB4204E1) (Lf 0xB8204E3)) (Nd (Lf 0xB4204E5) (Lf 0xB8204E7)))) (Nd (Nd (Nd (Lf 0xB4204E9) (Lf 0xB8204EB))
  (Nd (Lf 0xB4204ED) (Lf 0xB8204EF))) (Nd (Nd (Lf 0xB4204F1) (Lf 0xB8204F3)) (Nd (Lf 0xB4204F5) (Lf
  0xB8204F7))))) (Nd (Nd (Nd (Nd (Lf 0xB4204F9) (Lf 0xB8204FB)) (Nd (Lf 0xB4204FD) (Lf 0xB8204FF))) (Nd (Nd
  (Lf 0xB420501) (Lf 0xB820503)) (Nd (Lf 0x13420505) (Lf 0x13420507)))) (Nd (Nd (Nd (Lf 0x13420509) (Lf
  0x1342050B)) (Nd (Lf 0x7C2050D) (Lf 0x2C82050F))) (Nd (Nd (Lf 0x14400000) (Lf 0x14400000)) (Nd (Lf
  0x14400000) (Lf 0x14400000)))))).
Definition up_158 : trie N :=
  (Nd (Nd (Nd (Nd (Nd (Lf 0xB420511) (Lf 0xB820513)) (Nd (Lf 0xB420515) (Lf 0xB820517))) (Nd (Nd (Lf
  0xB420519) (Lf 0xB82051B)) (Nd (Lf 0xB42051D) (Lf 0xB82051F)))) (Nd (Nd (Nd (Lf 0xB420521) (Lf 0xB820523))
  (Nd (Lf 0xB420525) (Lf 0xB820527))) (Nd (Nd (Lf 0xB420529) (Lf 0xB82052B)) (Nd (Lf 0xB42052D) (Lf
  0xB82052F))))) (Nd (Nd (Nd (Nd (Lf 0xB420531) (Lf 0xB820533)) (Nd (Lf 0xB420535) (Lf 0xB820537))) (Nd (Nd
  (Lf 0xB420539) (Lf 0xB82053B)) (Nd (Lf 0xB42053D) (Lf 0xB82053F)))) (Nd (Nd (Nd (Lf 0xB420541) (Lf
  0xB820543)) (Nd (Lf 0xB420545) (Lf 0xB820547))) (Nd (Nd (Lf 0xB420549) (Lf 0xB82054B)) (Nd (Lf 0xB42054D)
  (Lf 0xB82054F)))))).
Definition up_159 : trie N :=
  (Nd (Nd (Nd (Nd (Nd (Lf 0xB420551) (Lf 0xB820553)) (Nd (Lf 0xB420555) (Lf 0xB820557))) (Nd (Nd (Lf
  0xB420559) (Lf 0xB82055B)) (Nd (Lf 0xB42055D) (Lf 0xB82055F)))) (Nd (Nd (Nd (Lf 0xB420561) (Lf 0xB820563))
  (Nd (Lf 0xB420565) (Lf 0xB820567))) (Nd (Nd (Lf 0xB420569) (Lf 0xB82056B)) (Nd (Lf 0xB42056D) (Lf
  0xB82056F))))) (Nd (Nd (Nd (Nd (Lf 0xB420571) (Lf 0xB820573)) (Nd (Lf 0xB420575) (Lf 0xB820577))) (Nd (Nd
  (Lf 0xB420579) (Lf 0xB82057B)) (Nd (Lf 0xB42057D) (Lf 0xB82057F)))) (Nd (Nd (Nd (Lf 0xB420581) (Lf
  0xB820583)) (Nd (Lf 0xB420585) (Lf 0xB820587))) (Nd (Nd (Lf 0xB420589) (Lf 0xB82058B)) (Nd (Lf 0xB42058D)
  (Lf 0xB82058F)))))).
Definition up_160 : trie N :=
  (Nd (Nd (Nd (Nd (Nd (Lf 0xB420591) (Lf 0xB820593)) (Nd (Lf 0xB420595) (Lf 0xB820597))) (Nd (Nd (Lf
  0xB420599) (Lf 0xB82059B)) (Nd (Lf 0xB42059D) (Lf 0xB82059F)))) (Nd (Nd (Nd (Lf 0xB4205A1) (Lf 0xB8205A3))
  (Nd (Lf 0xB4205A5) (Lf 0xB8205A7))) (Nd (Nd (Lf 0xB4205A9) (Lf 0xB8205AB)) (Nd (Lf 0xB4205AD) (Lf
  0xB8205AF))))) (Nd (Nd (Nd (Nd (Lf 0xB4205B1) (Lf 0xB8205B3)) (Nd (Lf 0xB4205B5) (Lf 0xB8205B7))) (Nd (Nd
  (Lf 0xB4205B9) (Lf 0xB8205BB)) (Nd (Lf 0xB4205BD) (Lf 0xB8205BF)))) (Nd (Nd (Nd (Lf 0xB4205C1) (Lf
  0xB8205C3)) (Nd (Lf 0x14400000) (Lf 0x14400000))) (Nd (Nd (Lf 0x14400000) (Lf 0x14400000)) (Nd (Lf
  0x14400000) (Lf 0x14400000)))))).
Definition up_161 : trie N :=
  (Nd (Nd (Nd (Nd (Nd (Lf 0x2CC205C5) (Lf 0x2CC205C7)) (Nd (Lf 0x2CC205C9) (Lf 0x2CC205CB))) (Nd (Nd (Lf
  0x2CC205CD) (Lf 0x2CC205CF)) (Nd (Lf 0x2CC205D1) (Lf 0x2CC205D3)))) (Nd (Nd (Nd (Lf 0x2D0205D5) (Lf
  0x2D0205D7)) (Nd (Lf 0x2D0205D9) (Lf 0x2D0205DB))) (Nd (Nd (Lf 0x2D0205DD) (Lf 0x2D0205DF)) (Nd (Lf
  0x2D0205E1) (Lf 0x2D0205E3))))) (Nd (Nd (Nd (Nd (Lf 0x2CC205E5) (Lf 0x2CC205E7)) (Nd (Lf 0x2CC205E9) (Lf
  0x2CC205EB))) (Nd (Nd (Lf 0x2CC205ED) (Lf 0x2CC205EF)) (Nd (Lf 0x14400000) (Lf 0x14400000)))) (Nd (Nd (Nd
  (Lf 0x2D0205F1) (Lf 0x2D0205F3)) (Nd (Lf 0x2D0205F5) (Lf 0x2D0205F7))) (Nd (Nd (Lf 0x2D0205F9) (Lf
  0x2D0205FB)) (Nd (Lf 0x14400000) (Lf 0x14400000)))))).
Definition up_162 : trie N :=
  (Nd (Nd (Nd (Nd (Nd (Lf 0x2CC205FD) (Lf 0x2CC205FF)) (Nd (Lf 0x2CC20601) (Lf 0x2CC20603))) (Nd (Nd (Lf
  0x2CC20605) (Lf 0x2CC20607)) (Nd (Lf 0x2CC20609) (Lf 0x2CC2060B)))) (Nd (Nd (Nd (Lf 0x2D02060D) (Lf
  0x2D02060F)) (Nd (Lf 0x2D020611) (Lf 0x2D020613))) (Nd (Nd (Lf 0x2D020615) (Lf 0x2D020617)) (Nd (Lf
  0x2D020619) (Lf 0x2D02061B))))) (Nd (Nd (Nd (Nd (Lf 0x2CC2061D) (Lf 0x2CC2061F)) (Nd (Lf 0x2CC20621) (Lf
  0x2CC20623))) (Nd (Nd (Lf 0x2CC20625) (Lf 0x2CC20627)) (Nd (Lf 0x2CC20629) (Lf 0x2CC2062B)))) (Nd (Nd (Nd
  (Lf 0x2D02062D) (Lf 0x2D02062F)) (Nd (Lf 0x2D020631) (Lf 0x2D020633))) (Nd (Nd (Lf 0x2D020635) (Lf
  0x2D020637)) (Nd (Lf 0x2D020639) (Lf 0x2D02063B)))))).
Definition up_163 : trie N :=
  (Nd (Nd (Nd (Nd (Nd (Lf 0x2CC2063D) (Lf 0x2CC2063F)) (Nd (Lf 0x2CC20641) (Lf 0x2CC20643))) (Nd (Nd (Lf
  0x2CC20645) (Lf 0x2CC20647)) (Nd (Lf 0x14400000) (Lf 0x14400000)))) (Nd (Nd (Nd (Lf 0x2D020649) (Lf
  0x2D02064B)) (Nd (Lf 0x2D02064D) (Lf 0x2D02064F))) (Nd (Nd (Lf 0x2D020651) (Lf 0x2D020653)) (Nd (Lf
  0x14400000) (Lf 0x14400000))))) (Nd (Nd (Nd (Nd (Lf 0x13420655) (Lf 0x2CC20657)) (Nd (Lf 0x13420659) (Lf
  0x2CC2065B))) (Nd (Nd (Lf 0x1342065D) (Lf 0x2CC2065F)) (Nd (Lf 0x13420661) (Lf 0x2CC20663)))) (Nd (Nd (Nd
  (Lf 0x14400000) (Lf 0x2D020665)) (Nd (Lf 0x14400000) (Lf 0x2D020667))) (Nd (Nd (Lf 0x14400000) (Lf
  0x2D020669)) (Nd (Lf 0x14400000) (Lf 0x2D02066B)))))).
Definition up_164 : trie N :=
  (Nd (Nd (Nd (Nd (Nd (Lf 0x2CC2066D) (Lf 0x2CC2066F)) (Nd (Lf 0x2CC20671) (Lf 0x2CC20673))) (Nd (Nd (Lf
  0x2CC20675) (Lf 0x2CC20677)) (Nd (Lf 0x2CC20679) (Lf 0x2CC2067B)))) (Nd (Nd (Nd (Lf 0x2D02067D) (Lf
  0x2D02067F)) (Nd (Lf 0x2D020681) (Lf 0x2D020683))) (Nd (Nd (Lf 0x2D020685) (Lf 0x2D020687)) (Nd (Lf
  0x2D020689) (Lf 0x2D02068B))))) (Nd (Nd (Nd (Nd (Lf 0x2D42068D) (Lf 0x2D41068F)) (Nd (Lf 0x2D820690) (Lf
  0x2D810692))) (Nd (Nd (Lf 0x2D820693) (Lf 0x2D810695)) (Nd (Lf 0x2DC20696) (Lf 0x2DC10698)))) (Nd (Nd (Nd
  (Lf 0x2E020699) (Lf 0x2E01069B)) (Nd (Lf 0x2E42069C) (Lf 0x2E41069E))) (Nd (Nd (Lf 0x2E82069F) (Lf
  0x2E8106A1)) (Nd (Lf 0x14400000) (Lf 0x14400000)))))).
Definition up_165 : trie N :=
  (Nd (Nd (Nd (Nd (Nd (Lf 0x2CC206A2) (Lf 0x2CC206A4)) (Nd (Lf 0x2CC206A6) (Lf 0x2CC206A8))) (Nd (Nd (Lf
  0x2CC206AA) (Lf 0x2CC206AC)) (Nd (Lf 0x2CC206AE) (Lf 0x2CC206B0)))) (Nd (Nd (Nd (Lf 0x2EC206B2) (Lf
  0x2EC206B4)) (Nd (Lf 0x2EC206B6) (Lf 0x2EC206B8))) (Nd (Nd (Lf 0x2EC206BA) (Lf 0x2EC206BC)) (Nd (Lf
  0x2EC206BE) (Lf 0x2EC206C0))))) (Nd (Nd (Nd (Nd (Lf 0x2CC206C2) (Lf 0x2CC206C4)) (Nd (Lf 0x2CC206C6) (Lf
  0x2CC206C8))) (Nd (Nd (Lf 0x2CC206CA) (Lf 0x2CC206CC)) (Nd (Lf 0x2CC206CE) (Lf 0x2CC206D0)))) (Nd (Nd (Nd
  (Lf 0x2EC206D2) (Lf 0x2EC206D4)) (Nd (Lf 0x2EC206D6) (Lf 0x2EC206D8))) (Nd (Nd (Lf 0x2EC206DA) (Lf
  0x2EC206DC)) (Nd (Lf 0x2EC206DE) (Lf 0x2EC206E0)))))).
Definition up_166 : trie N :=
  (Nd (Nd (Nd (Nd (Nd (Lf 0x2CC206E2) (Lf 0x2CC206E4)) (Nd (Lf 0x2CC206E6) (Lf 0x2CC206E8))) (Nd (Nd (Lf
  0x2CC206EA) (Lf 0x2CC206EC)) (Nd (Lf 0x2CC206EE) (Lf 0x2CC206F0)))) (Nd (Nd (Nd (Lf 0x2EC206F2) (Lf
  0x2EC206F4)) (Nd (Lf 0x2EC206F6) (Lf 0x2EC206F8))) (Nd (Nd (Lf 0x2EC206FA) (Lf 0x2EC206FC)) (Nd (Lf
  0x2EC206FE) (Lf 0x2EC20700))))) (Nd (Nd (Nd (Nd (Lf 0x2CC20702) (Lf 0x2CC20704)) (Nd (Lf 0x13420706) (Lf
  0x2F020708))) (Nd (Nd (Lf 0x1342070A) (Lf 0x14400000)) (Nd (Lf 0x1342070C) (Lf 0x1342070E)))) (Nd (Nd (Nd
  (Lf 0x2D020710) (Lf 0x2D020712)) (Nd (Lf 0x2F420714) (Lf 0x2F410716))) (Nd (Nd (Lf 0x2F820717) (Lf
  0x7820719)) (Nd (Lf 0x1341071B) (Lf 0x782071C)))))).
Definition up_167 : trie N :=
  (Nd (Nd (Nd (Nd (Nd (Lf 0x782071E) (Lf 0x1A020720)) (Nd (Lf 0x13420722) (Lf 0x2F020724))) (Nd (Nd (Lf
  0x13420726) (Lf 0x14400000)) (Nd (Lf 0x13420728) (Lf 0x1342072A)))) (Nd (Nd (Nd (Lf 0x2FC2072C) (Lf
  0x2FC1072E)) (Nd (Lf 0x2FC2072F) (Lf 0x2FC10731))) (Nd (Nd (Lf 0x2F820732) (Lf 0x1A020734)) (Nd (Lf
  0x1A020736) (Lf 0x1A020738))))) (Nd (Nd (Nd (Nd (Lf 0x2CC2073A) (Lf 0x2CC2073C)) (Nd (Lf 0x1342073E) (Lf
  0x13410740))) (Nd (Nd (Lf 0x14400000) (Lf 0x14400000)) (Nd (Lf 0x13420741) (Lf 0x13420743)))) (Nd (Nd (Nd
  (Lf 0x2D020745) (Lf 0x2D020747)) (Nd (Lf 0x30020749) (Lf 0x3001074B))) (Nd (Nd (Lf 0x14400000) (Lf
  0x1A02074C)) (Nd (Lf 0x1A02074E) (Lf 0x1A020750)))))).
Definition up_168 : trie N :=
  (Nd (Nd (Nd (Nd (Nd (Lf 0x2CC20752) (Lf 0x2CC20754)) (Nd (Lf 0x13420756) (Lf 0x13410758))) (Nd (Nd (Lf
  0x13420759) (Lf 0x3042075B)) (Nd (Lf 0x1342075D) (Lf 0x1342075F)))) (Nd (Nd (Nd (Lf 0x2D020761) (Lf
  0x2D020763)) (Nd (Lf 0x30820765) (Lf 0x30810767))) (Nd (Nd (Lf 0x30C20768) (Lf 0x1A02076A)) (Nd (Lf
  0x1A01076C) (Lf 0x1A01076D))))) (Nd (Nd (Nd (Nd (Lf 0x14400000) (Lf 0x14400000)) (Nd (Lf 0x1342076E) (Lf
  0x2F020770))) (Nd (Nd (Lf 0x13420772) (Lf 0x14400000)) (Nd (Lf 0x13420774) (Lf 0x13420776)))) (Nd (Nd (Nd
  (Lf 0x31020778) (Lf 0x3101077A)) (Nd (Lf 0x3142077B) (Lf 0x3141077D))) (Nd (Nd (Lf 0x2F82077E) (Lf
  0x1A010780)) (Nd (Lf 0x7820781) (Lf 0x14400000)))))).
Definition up_169 : trie N :=
  (Nd (Nd (Nd (Nd (Nd (Lf 0x31810783) (Lf 0x31810784)) (Nd (Lf 0x31C10785) (Lf 0x31C10786))) (Nd (Nd (Lf
  0x31C10787) (Lf 0x31C10788)) (Nd (Lf 0x31C10789) (Lf 0x31C1078A)))) (Nd (Nd (Nd (Lf 0x31C1078B) (Lf
  0x31C1078C)) (Nd (Lf 0x31C1078D) (Lf 0x32000000))) (Nd (Nd (Lf 0x32400000) (Lf 0x32400000)) (Nd (Lf
  0x32800000) (Lf 0x32C00000))))) (Nd (Nd (Nd (Nd (Lf 0x22C00000) (Lf 0x3301078E)) (Nd (Lf 0x33400000) (Lf
  0x33400000))) (Nd (Nd (Lf 0x33400000) (Lf 0x33400000)) (Nd (Lf 0x2800000) (Lf 0x3382078F)))) (Nd (Nd (Nd (Lf
  0x33C00000) (Lf 0x34000000)) (Nd (Lf 0x34400000) (Lf 0x33C00000))) (Nd (Nd (Lf 0x8000000) (Lf 0x9C00000))
  (Nd (Lf 0x34800000) (Lf 0x8000000)))))).
Definition up_170 : trie N :=
  (Nd (Nd (Nd (Nd (Nd (Lf 0x2800000) (Lf 0x2800000)) (Nd (Lf 0x2800000) (Lf 0x2800000))) (Nd (Nd (Lf
  0x33810791) (Lf 0x33820792)) (Nd (Lf 0x34C30794) (Lf 0x2800000)))) (Nd (Nd (Nd (Lf 0x35000000) (Lf
  0x35400000)) (Nd (Lf 0x35800000) (Lf 0x35800000))) (Nd (Nd (Lf 0x35800000) (Lf 0x35800000)) (Nd (Lf
  0x35800000) (Lf 0x35C10797))))) (Nd (Nd (Nd (Nd (Lf 0x2000000) (Lf 0x2000000)) (Nd (Lf 0x36000000) (Lf
  0x36420798))) (Nd (Nd (Lf 0x3643079A) (Lf 0x2C00000)) (Nd (Lf 0x3682079D) (Lf 0x3683079F)))) (Nd (Nd (Nd (Lf
  0x2800000) (Lf 0x8000000)) (Nd (Lf 0x9C00000) (Lf 0x2800000))) (Nd (Nd (Lf 0x34C207A2) (Lf 0x1800000)) (Nd
  (Lf 0x338207A4) (Lf 0x6000000)))))).
Definition up_171 : trie N :=
  (Nd (Nd (Nd (Nd (Nd (Lf 0x6000000) (Lf 0x2800000)) (Nd (Lf 0x2800000) (Lf 0x2800000))) (Nd (Nd (Lf
  0x5000000) (Lf 0x3000000)) (Nd (Lf 0x3400000) (Lf 0x34C207A6)))) (Nd (Nd (Nd (Lf 0x34C207A8) (Lf
  0x34C207AA)) (Nd (Lf 0x2800000) (Lf 0x2800000))) (Nd (Nd (Lf 0x2800000) (Lf 0x2800000)) (Nd (Lf 0x2800000)
  (Lf 0x1800000))))) (Nd (Nd (Nd (Nd (Lf 0x2800000) (Lf 0x2800000)) (Nd (Lf 0x5000000) (Lf 0x2800000))) (Nd
  (Nd (Lf 0x6000000) (Lf 0x14400000)) (Nd (Lf 0x14400000) (Lf 0x368407AC)))) (Nd (Nd (Nd (Lf 0x14400000) (Lf
  0x14400000)) (Nd (Lf 0x14400000) (Lf 0x14400000))) (Nd (Nd (Lf 0x14400000) (Lf 0x14400000)) (Nd (Lf
  0x14400000) (Lf 0x31C107B0)))))).
Definition up_172 : trie N :=
  (Nd (Nd (Nd (Nd (Nd (Lf 0x32400000) (Lf 0x23800000)) (Nd (Lf 0x23800000) (Lf 0x23800000))) (Nd (Nd (Lf
  0x14400000) (Lf 0x14400000)) (Nd (Lf 0x14400000) (Lf 0x14400000)))) (Nd (Nd (Nd (Lf 0x14400000) (Lf
  0x14400000)) (Nd (Lf 0x23800000) (Lf 0x23800000))) (Nd (Nd (Lf 0x23800000) (Lf 0x23800000)) (Nd (Lf
  0x23800000) (Lf 0x23800000))))) (Nd (Nd (Nd (Nd (Lf 0x36C107B1) (Lf 0x7C107B2)) (Nd (Lf 0x14400000) (Lf
  0x14400000))) (Nd (Nd (Lf 0x8C107B3) (Lf 0x8C107B4)) (Nd (Lf 0x8C107B5) (Lf 0x8C107B6)))) (Nd (Nd (Nd (Lf
  0x8C107B7) (Lf 0x8C107B8)) (Nd (Lf 0x370107B9) (Lf 0x374107BA))) (Nd (Nd (Lf 0x378107BB) (Lf 0x37C107BC))
  (Nd (Lf 0x380107BD) (Lf 0x7C107BE)))))).
Definition up_173 : trie N :=
  (Nd (Nd (Nd (Nd (Nd (Lf 0x36C107BF) (Lf 0x384107C0)) (Nd (Lf 0x384107C1) (Lf 0x384107C2))) (Nd (Nd (Lf
  0x384107C3) (Lf 0x384107C4)) (Nd (Lf 0x384107C5) (Lf 0x384107C6)))) (Nd (Nd (Nd (Lf 0x384107C7) (Lf
  0x384107C8)) (Nd (Lf 0x370107C9) (Lf 0x374107CA))) (Nd (Nd (Lf 0x378107CB) (Lf 0x37C107CC)) (Nd (Lf
  0x380107CD) (Lf 0x14400000))))) (Nd (Nd (Nd (Nd (Lf 0x14400000) (Lf 0x14400000)) (Nd (Lf 0x14400000) (Lf
  0x14400000))) (Nd (Nd (Lf 0x14400000) (Lf 0x14400000)) (Nd (Lf 0x14400000) (Lf 0x14400000)))) (Nd (Nd (Nd
  (Lf 0x14400000) (Lf 0x14400000)) (Nd (Lf 0x14400000) (Lf 0x14400000))) (Nd (Nd (Lf 0x14400000) (Lf
  0x14400000)) (Nd (Lf 0x14400000) (Lf 0x14400000)))))).
Definition up_174 : trie N :=
  (Nd (Nd (Nd (Nd (Nd (Lf 0x2400000) (Lf 0x2400000)) (Nd (Lf 0x2400000) (Lf 0x2400000))) (Nd (Nd (Lf
  0x2400000) (Lf 0x2400000)) (Nd (Lf 0x2400000) (Lf 0x2400000)))) (Nd (Nd (Nd (Lf 0x388207CE) (Lf 0x2400000))
  (Nd (Lf 0x2400000) (Lf 0x2400000))) (Nd (Nd (Lf 0x2400000) (Lf 0x2400000)) (Nd (Lf 0x2400000) (Lf
  0x2400000))))) (Nd (Nd (Nd (Nd (Lf 0x2400000) (Lf 0x2400000)) (Nd (Lf 0x14400000) (Lf 0x14400000))) (Nd (Nd
  (Lf 0x14400000) (Lf 0x14400000)) (Nd (Lf 0x14400000) (Lf 0x14400000)))) (Nd (Nd (Nd (Lf 0x14400000) (Lf
  0x14400000)) (Nd (Lf 0x14400000) (Lf 0x14400000))) (Nd (Nd (Lf 0x14400000) (Lf 0x14400000)) (Nd (Lf
  0x14400000) (Lf 0x14400000)))))).
Definition up_175 : trie N :=
  (Nd (Nd (Nd (Nd (Nd (Lf 0x14400000) (Lf 0x14400000)) (Nd (Lf 0x14400000) (Lf 0x14400000))) (Nd (Nd (Lf
  0x14400000) (Lf 0x14400000)) (Nd (Lf 0x14400000) (Lf 0x14400000)))) (Nd (Nd (Nd (Lf 0x14400000) (Lf
  0x14400000)) (Nd (Lf 0x14400000) (Lf 0x14400000))) (Nd (Nd (Lf 0x14400000) (Lf 0x14400000)) (Nd (Lf
  0x14400000) (Lf 0x14400000))))) (Nd (Nd (Nd (Nd (Lf 0x19000000) (Lf 0x19000000)) (Nd (Lf 0x19000000) (Lf
  0x19000000))) (Nd (Nd (Lf 0x19000000) (Lf 0x19000000)) (Nd (Lf 0x19000000) (Lf 0x19000000)))) (Nd (Nd (Nd
  (Lf 0x19000000) (Lf 0x19000000)) (Nd (Lf 0x19000000) (Lf 0x19000000))) (Nd (Nd (Lf 0x19000000) (Lf
  0x21400000)) (Nd (Lf 0x21400000) (Lf 0x21400000)))))).
Definition up_176 : trie N :=
  (Nd (Nd (Nd (Nd (Nd (Lf 0x21400000) (Lf 0x19000000)) (Nd (Lf 0x21400000) (Lf 0x21400000))) (Nd (Nd (Lf
  0x21400000) (Lf 0x19000000)) (Nd (Lf 0x19000000) (Lf 0x19000000)))) (Nd (Nd (Nd (Lf 0x19000000) (Lf
  0x19000000)) (Nd (Lf 0x19000000) (Lf 0x14400000))) (Nd (Nd (Lf 0x14400000) (Lf 0x14400000)) (Nd (Lf
  0x14400000) (Lf 0x14400000))))) (Nd (Nd (Nd (Nd (Lf 0x14400000) (Lf 0x14400000)) (Nd (Lf 0x14400000) (Lf
  0x14400000))) (Nd (Nd (Lf 0x14400000) (Lf 0x14400000)) (Nd (Lf 0x14400000) (Lf 0x14400000)))) (Nd (Nd (Nd
  (Lf 0x14400000) (Lf 0x14400000)) (Nd (Lf 0x14400000) (Lf 0x14400000))) (Nd (Nd (Lf 0x14400000) (Lf
  0x14400000)) (Nd (Lf 0x14400000) (Lf 0x14400000)))))).
Definition up_177 : trie N :=
  (Nd (Nd (Nd (Nd (Nd (Lf 0x38C307D0) (Lf 0x38C307D3)) (Nd (Lf 0x1D8107D6) (Lf 0x38C207D7))) (Nd (Nd (Lf
  0x7400000) (Lf 0x38C307D9)) (Nd (Lf 0x38C307DC) (Lf 0x1D8107DF)))) (Nd (Nd (Nd (Lf 0x7400000) (Lf
  0x38C207E0)) (Nd (Lf 0x7C107E2) (Lf 0x1D8107E3))) (Nd (Nd (Lf 0x1D8107E4) (Lf 0x1D8107E5)) (Nd (Lf
  0x7C107E6) (Lf 0x7C107E7))))) (Nd (Nd (Nd (Nd (Lf 0x1D8107E8) (Lf 0x1D8107E9)) (Nd (Lf 0x1D8107EA) (Lf
  0x7C107EB))) (Nd (Nd (Lf 0x7400000) (Lf 0x1D8107EC)) (Nd (Lf 0x38C207ED) (Lf 0x7400000)))) (Nd (Nd (Nd (Lf
  0x7400000) (Lf 0x1D8107EF)) (Nd (Lf 0x1D8107F0) (Lf 0x1D8107F1))) (Nd (Nd (Lf 0x1D8107F2) (Lf 0x1D8107F3))
  (Nd (Lf 0x7400000) (Lf 0x7400000)))))).
Definition up_178 : trie N :=
  (Nd (Nd (Nd (Nd (Nd (Lf 0x38C207F4) (Lf 0x38C307F6)) (Nd (Lf 0x38C207F9) (Lf 0x7400000))) (Nd (Nd (Lf
  0x1D8107FB) (Lf 0x7400000)) (Nd (Lf 0x1DC107FC) (Lf 0x7400000)))) (Nd (Nd (Nd (Lf 0x1D8107FD) (Lf
  0x7400000)) (Nd (Lf 0x1DC107FE) (Lf 0x1DC107FF))) (Nd (Nd (Lf 0x1D810800) (Lf 0x1D810801)) (Nd (Lf
  0x8800000) (Lf 0x7C10802))))) (Nd (Nd (Nd (Nd (Lf 0x1D810803) (Lf 0x1D810804)) (Nd (Lf 0x7400000) (Lf
  0x1D810805))) (Nd (Nd (Lf 0x7C10806) (Lf 0x29410807)) (Nd (Lf 0x29410808) (Lf 0x29410809)))) (Nd (Nd (Nd (Lf
  0x2941080A) (Lf 0x7C1080B)) (Nd (Lf 0x7400000) (Lf 0x38C3080C))) (Nd (Nd (Lf 0x14400000) (Lf 0x7C1080F)) (Nd
  (Lf 0x1D810810) (Lf 0x1D810811)))))).
Definition up_179 : trie N :=
  (Nd (Nd (Nd (Nd (Nd (Lf 0x37810812) (Lf 0x5000000)) (Nd (Lf 0x5000000) (Lf 0x5000000))) (Nd (Nd (Lf
  0x5000000) (Lf 0x1D810813)) (Nd (Lf 0x7C10814) (Lf 0x7C10815)))) (Nd (Nd (Nd (Lf 0x7C10816) (Lf 0x7C10817))
  (Nd (Lf 0x7400000) (Lf 0x5000000))) (Nd (Nd (Lf 0x14400000) (Lf 0x14400000)) (Nd (Lf 0x14400000) (Lf
  0x14400000))))) (Nd (Nd (Nd (Nd (Lf 0x14400000) (Lf 0x14400000)) (Nd (Lf 0x14400000) (Lf 0xA030818))) (Nd
  (Nd (Lf 0xA03081B) (Lf 0xA03081E)) (Nd (Lf 0xA030821) (Lf 0xA030824)))) (Nd (Nd (Nd (Lf 0xA030827) (Lf
  0xA03082A)) (Nd (Lf 0xA03082D) (Lf 0xA030830))) (Nd (Nd (Lf 0xA030833) (Lf 0xA030836)) (Nd (Lf 0xA030839)
  (Lf 0xA02083C)))))).
Definition up_180 : trie N :=
  (Nd (Nd (Nd (Nd (Nd (Lf 0x3901083E) (Lf 0x3902083F)) (Nd (Lf 0x39030841) (Lf 0x39020844))) (Nd (Nd (Lf
  0x39010846) (Lf 0x39020847)) (Nd (Lf 0x39030849) (Lf 0x3904084C)))) (Nd (Nd (Nd (Lf 0x39020850) (Lf
  0x39010852)) (Nd (Lf 0x39020853) (Lf 0x39030855))) (Nd (Nd (Lf 0x39010858) (Lf 0x39010859)) (Nd (Lf
  0x3901085A) (Lf 0x3901085B))))) (Nd (Nd (Nd (Nd (Lf 0x3941085C) (Lf 0x3942085D)) (Nd (Lf 0x3943085F) (Lf
  0x39420862))) (Nd (Nd (Lf 0x39410864) (Lf 0x39420865)) (Nd (Lf 0x39430867) (Lf 0x3944086A)))) (Nd (Nd (Nd
  (Lf 0x3942086E) (Lf 0x39410870)) (Nd (Lf 0x39420871) (Lf 0x39430873))) (Nd (Nd (Lf 0x39410876) (Lf
  0x39410877)) (Nd (Lf 0x39410878) (Lf 0x39410879)))))).
Definition up_181 : trie N :=
  (Nd (Nd (Nd (Nd (Nd (Lf 0x2B800000) (Lf 0x2B800000)) (Nd (Lf 0x2B800000) (Lf 0x2B800000))) (Nd (Nd (Lf
  0x14400000) (Lf 0x14400000)) (Nd (Lf 0x14400000) (Lf 0x14400000)))) (Nd (Nd (Nd (Lf 0x14400000) (Lf
  0x14400000)) (Nd (Lf 0x14400000) (Lf 0x14400000))) (Nd (Nd (Lf 0x14400000) (Lf 0x14400000)) (Nd (Lf
  0x14400000) (Lf 0x14400000))))) (Nd (Nd (Nd (Nd (Lf 0x5000000) (Lf 0x5000000)) (Nd (Lf 0x5000000) (Lf
  0x5000000))) (Nd (Nd (Lf 0x5000000) (Lf 0x7400000)) (Nd (Lf 0x7400000) (Lf 0x7400000)))) (Nd (Nd (Nd (Lf
  0x7400000) (Lf 0x7400000)) (Nd (Lf 0x3982087A) (Lf 0x3982087C))) (Nd (Nd (Lf 0x7400000) (Lf 0x7400000)) (Nd
  (Lf 0x7400000) (Lf 0x7400000)))))).
Definition up_182 : trie N :=
  (Nd (Nd (Nd (Nd (Nd (Lf 0x5000000) (Lf 0x7400000)) (Nd (Lf 0x7400000) (Lf 0x5000000))) (Nd (Nd (Lf
  0x7400000) (Lf 0x7400000)) (Nd (Lf 0x5000000) (Lf 0x7400000)))) (Nd (Nd (Nd (Lf 0x7400000) (Lf 0x7400000))
  (Nd (Lf 0x7400000) (Lf 0x7400000))) (Nd (Nd (Lf 0x7400000) (Lf 0x7400000)) (Nd (Lf 0x3982087E) (Lf
  0x7400000))))) (Nd (Nd (Nd (Nd (Lf 0x7400000) (Lf 0x7400000)) (Nd (Lf 0x7400000) (Lf 0x7400000))) (Nd (Nd
  (Lf 0x7400000) (Lf 0x7400000)) (Nd (Lf 0x7400000) (Lf 0x7400000)))) (Nd (Nd (Nd (Lf 0x7400000) (Lf
  0x7400000)) (Nd (Lf 0x7400000) (Lf 0x7400000))) (Nd (Nd (Lf 0x7400000) (Lf 0x7400000)) (Nd (Lf 0x7400000)
  (Lf 0x7400000)))))).
Definition up_183 : trie N :=
  (Nd (Nd (Nd (Nd (Nd (Lf 0x7400000) (Lf 0x7400000)) (Nd (Lf 0x7400000) (Lf 0x7400000))) (Nd (Nd (Lf
  0x7400000) (Lf 0x7400000)) (Nd (Lf 0x7400000) (Lf 0x7400000)))) (Nd (Nd (Nd (Lf 0x7400000) (Lf 0x7400000))
  (Nd (Lf 0x7400000) (Lf 0x7400000))) (Nd (Nd (Lf 0x7400000) (Lf 0x39C20880)) (Nd (Lf 0x39820882) (Lf
  0x39820884))))) (Nd (Nd (Nd (Nd (Lf 0x7400000) (Lf 0x7400000)) (Nd (Lf 0x5000000) (Lf 0x7400000))) (Nd (Nd
  (Lf 0x5000000) (Lf 0x7400000)) (Nd (Lf 0x7400000) (Lf 0x7400000)))) (Nd (Nd (Nd (Lf 0x7400000) (Lf
  0x7400000)) (Nd (Lf 0x7400000) (Lf 0x7400000))) (Nd (Nd (Lf 0x7400000) (Lf 0x7400000)) (Nd (Lf 0x7400000)
  (Lf 0x7400000)))))).
Definition up_184 : trie N :=
  (Nd (Nd (Nd (Nd (Nd (Lf 0x7400000) (Lf 0x7400000)) (Nd (Lf 0x7400000) (Lf 0x7400000))) (Nd (Nd (Lf
  0x7400000) (Lf 0x7400000)) (Nd (Lf 0x7400000) (Lf 0x7400000)))) (Nd (Nd (Nd (Lf 0x7400000) (Lf 0x7400000))
  (Nd (Lf 0x7400000) (Lf 0x7400000))) (Nd (Nd (Lf 0x7400000) (Lf 0x7400000)) (Nd (Lf 0x7400000) (Lf
  0x7400000))))) (Nd (Nd (Nd (Nd (Lf 0x7400000) (Lf 0x7400000)) (Nd (Lf 0x7400000) (Lf 0x7400000))) (Nd (Nd
  (Lf 0x5000000) (Lf 0x5000000)) (Nd (Lf 0x5000000) (Lf 0x5000000)))) (Nd (Nd (Nd (Lf 0x5000000) (Lf
  0x5000000)) (Nd (Lf 0x5000000) (Lf 0x5000000))) (Nd (Nd (Lf 0x5000000) (Lf 0x5000000)) (Nd (Lf 0x5000000)
  (Lf 0x5000000)))))).
Definition up_185 : trie N :=
  (Nd (Nd (Nd (Nd (Nd (Lf 0x5000000) (Lf 0x5000000)) (Nd (Lf 0x5000000) (Lf 0x5000000))) (Nd (Nd (Lf
  0x39820886) (Lf 0x5000000)) (Nd (Lf 0x5000000) (Lf 0x5000000)))) (Nd (Nd (Nd (Lf 0x5000000) (Lf 0x39820888))
  (Nd (Lf 0x5000000) (Lf 0x5000000))) (Nd (Nd (Lf 0x3982088A) (Lf 0x5000000)) (Nd (Lf 0x5000000) (Lf
  0x5000000))))) (Nd (Nd (Nd (Nd (Lf 0x5000000) (Lf 0x5000000)) (Nd (Lf 0x3A000000) (Lf 0x3800000))) (Nd (Nd
  (Lf 0x5000000) (Lf 0x5000000)) (Nd (Lf 0x5000000) (Lf 0x5000000)))) (Nd (Nd (Nd (Lf 0x5000000) (Lf
  0x5000000)) (Nd (Lf 0x5000000) (Lf 0x5000000))) (Nd (Nd (Lf 0x5000000) (Lf 0x5000000)) (Nd (Lf 0x5000000)
  (Lf 0x5000000)))))).
Definition up_186 : trie N :=
  (Nd (Nd (Nd (Nd (Nd (Lf 0x5000000) (Lf 0x5000000)) (Nd (Lf 0x5000000) (Lf 0x5000000))) (Nd (Nd (Lf
  0x3982088C) (Lf 0x5000000)) (Nd (Lf 0x3982088E) (Lf 0x5000000)))) (Nd (Nd (Nd (Lf 0x5000000) (Lf 0x5000000))
  (Nd (Lf 0x5000000) (Lf 0x5000000))) (Nd (Nd (Lf 0x37820890) (Lf 0x37830892)) (Nd (Lf 0x5000000) (Lf
  0x37820895))))) (Nd (Nd (Nd (Nd (Lf 0x37830897) (Lf 0x5000000)) (Nd (Lf 0x5000000) (Lf 0x5000000))) (Nd (Nd
  (Lf 0x5000000) (Lf 0x5000000)) (Nd (Lf 0x5000000) (Lf 0x5000000)))) (Nd (Nd (Nd (Lf 0x5000000) (Lf
  0x5000000)) (Nd (Lf 0x5000000) (Lf 0x5000000))) (Nd (Nd (Lf 0x5000000) (Lf 0x5000000)) (Nd (Lf 0x5000000)
  (Lf 0x5000000)))))).
Definition up_187 : trie N :=
  (Nd (Nd (Nd (Nd (Nd (Lf 0x5000000) (Lf 0x3982089A)) (Nd (Lf 0x5000000) (Lf 0x5000000))) (Nd (Nd (Lf
  0x3982089C) (Lf 0x5000000)) (Nd (Lf 0x5000000) (Lf 0x3982089E)))) (Nd (Nd (Nd (Lf 0x5000000) (Lf
  0x398208A0)) (Nd (Lf 0x5000000) (Lf 0x5000000))) (Nd (Nd (Lf 0x5000000) (Lf 0x5000000)) (Nd (Lf 0x5000000)
  (Lf 0x5000000))))) (Nd (Nd (Nd (Nd (Lf 0x5000000) (Lf 0x5000000)) (Nd (Lf 0x5000000) (Lf 0x5000000))) (Nd
  (Nd (Lf 0x5000000) (Lf 0x5000000)) (Nd (Lf 0x5000000) (Lf 0x5000000)))) (Nd (Nd (Nd (Lf 0x5000000) (Lf
  0x5000000)) (Nd (Lf 0x5000000) (Lf 0x5000000))) (Nd (Nd (Lf 0x5000000) (Lf 0x5000000)) (Nd (Lf 0x5000000)
  (Lf 0x5000000)))))).
Definition up_188 : trie N :=
  (Nd (Nd (Nd (Nd (Nd (Lf 0x398208A2) (Lf 0x5000000)) (Nd (Lf 0x398208A4) (Lf 0x5000000))) (Nd (Nd (Lf
  0x5000000) (Lf 0x5000000)) (Nd (Lf 0x5000000) (Lf 0x5000000)))) (Nd (Nd (Nd (Lf 0x5000000) (Lf 0x5000000))
  (Nd (Lf 0x5000000) (Lf 0x5000000))) (Nd (Nd (Lf 0x5000000) (Lf 0x398208A6)) (Nd (Lf 0x398208A8) (Lf
  0x398208AA))))) (Nd (Nd (Nd (Nd (Lf 0x398208AC) (Lf 0x398208AE)) (Nd (Lf 0x5000000) (Lf 0x5000000))) (Nd (Nd
  (Lf 0x398208B0) (Lf 0x398208B2)) (Nd (Lf 0x5000000) (Lf 0x5000000)))) (Nd (Nd (Nd (Lf 0x398208B4) (Lf
  0x398208B6)) (Nd (Lf 0x5000000) (Lf 0x5000000))) (Nd (Nd (Lf 0x5000000) (Lf 0x5000000)) (Nd (Lf 0x5000000)
  (Lf 0x5000000)))))).
Definition up_189 : trie N :=
  (Nd (Nd (Nd (Nd (Nd (Lf 0x398208B8) (Lf 0x398208BA)) (Nd (Lf 0x5000000) (Lf 0x5000000))) (Nd (Nd (Lf
  0x398208BC) (Lf 0x398208BE)) (Nd (Lf 0x5000000) (Lf 0x5000000)))) (Nd (Nd (Nd (Lf 0x398208C0) (Lf
  0x398208C2)) (Nd (Lf 0x5000000) (Lf 0x5000000))) (Nd (Nd (Lf 0x5000000) (Lf 0x5000000)) (Nd (Lf 0x5000000)
  (Lf 0x5000000))))) (Nd (Nd (Nd (Nd (Lf 0x5000000) (Lf 0x5000000)) (Nd (Lf 0x5000000) (Lf 0x5000000))) (Nd
  (Nd (Lf 0x5000000) (Lf 0x5000000)) (Nd (Lf 0x5000000) (Lf 0x5000000)))) (Nd (Nd (Nd (Lf 0x5000000) (Lf
  0x5000000)) (Nd (Lf 0x5000000) (Lf 0x5000000))) (Nd (Nd (Lf 0x5000000) (Lf 0x5000000)) (Nd (Lf 0x5000000)
  (Lf 0x5000000)))))).
Definition up_190 : trie N :=
  (Nd (Nd (Nd (Nd (Nd (Lf 0x5000000) (Lf 0x5000000)) (Nd (Lf 0x5000000) (Lf 0x5000000))) (Nd (Nd (Lf
  0x5000000) (Lf 0x5000000)) (Nd (Lf 0x5000000) (Lf 0x5000000)))) (Nd (Nd (Nd (Lf 0x5000000) (Lf 0x5000000))
  (Nd (Lf 0x5000000) (Lf 0x5000000))) (Nd (Nd (Lf 0x398208C4) (Lf 0x398208C6)) (Nd (Lf 0x398208C8) (Lf
  0x398208CA))))) (Nd (Nd (Nd (Nd (Lf 0x5000000) (Lf 0x5000000)) (Nd (Lf 0x5000000) (Lf 0x5000000))) (Nd (Nd
  (Lf 0x5000000) (Lf 0x5000000)) (Nd (Lf 0x5000000) (Lf 0x5000000)))) (Nd (Nd (Nd (Lf 0x5000000) (Lf
  0x5000000)) (Nd (Lf 0x5000000) (Lf 0x5000000))) (Nd (Nd (Lf 0x5000000) (Lf 0x5000000)) (Nd (Lf 0x5000000)
  (Lf 0x5000000)))))).
Definition up_191 : trie N :=
  (Nd (Nd (Nd (Nd (Nd (Lf 0x5000000) (Lf 0x5000000)) (Nd (Lf 0x5000000) (Lf 0x5000000))) (Nd (Nd (Lf
  0x5000000) (Lf 0x5000000)) (Nd (Lf 0x5000000) (Lf 0x5000000)))) (Nd (Nd (Nd (Lf 0x5000000) (Lf 0x5000000))
  (Nd (Lf 0x5000000) (Lf 0x5000000))) (Nd (Nd (Lf 0x5000000) (Lf 0x5000000)) (Nd (Lf 0x5000000) (Lf
  0x5000000))))) (Nd (Nd (Nd (Nd (Lf 0x5000000) (Lf 0x5000000)) (Nd (Lf 0x5000000) (Lf 0x5000000))) (Nd (Nd
  (Lf 0x5000000) (Lf 0x5000000)) (Nd (Lf 0x5000000) (Lf 0x5000000)))) (Nd (Nd (Nd (Lf 0x5000000) (Lf
  0x5000000)) (Nd (Lf 0x5000000) (Lf 0x5000000))) (Nd (Nd (Lf 0x5000000) (Lf 0x5000000)) (Nd (Lf 0x5000000)
  (Lf 0x5000000)))))).
Definition up_192 : trie N :=
  (Nd (Nd (Nd (Nd (Nd (Lf 0x398208CC) (Lf 0x398208CE)) (Nd (Lf 0x398208D0) (Lf 0x398208D2))) (Nd (Nd (Lf
  0x5000000) (Lf 0x5000000)) (Nd (Lf 0x5000000) (Lf 0x5000000)))) (Nd (Nd (Nd (Lf 0x5000000) (Lf 0x5000000))
  (Nd (Lf 0x398208D4) (Lf 0x398208D6))) (Nd (Nd (Lf 0x398208D8) (Lf 0x398208DA)) (Nd (Lf 0x5000000) (Lf
  0x5000000))))) (Nd (Nd (Nd (Nd (Lf 0x5000000) (Lf 0x5000000)) (Nd (Lf 0x5000000) (Lf 0x5000000))) (Nd (Nd
  (Lf 0x5000000) (Lf 0x5000000)) (Nd (Lf 0x5000000) (Lf 0x5000000)))) (Nd (Nd (Nd (Lf 0x5000000) (Lf
  0x5000000)) (Nd (Lf 0x5000000) (Lf 0x5000000))) (Nd (Nd (Lf 0x5000000) (Lf 0x5000000)) (Nd (Lf 0x5000000)
  (Lf 0x5000000)))))).
Definition up_193 : trie N :=
  (Nd (Nd (Nd (Nd (Nd (Lf 0x7400000) (Lf 0x7400000)) (Nd (Lf 0x7400000) (Lf 0x7400000))) (Nd (Nd (Lf
  0x7400000) (Lf 0x7400000)) (Nd (Lf 0x7400000) (Lf 0x7400000)))) (Nd (Nd (Nd (Lf 0x5000000) (Lf 0x5000000))
  (Nd (Lf 0x5000000) (Lf 0x5000000))) (Nd (Nd (Lf 0x7400000) (Lf 0x7400000)) (Nd (Lf 0x7400000) (Lf
  0x7400000))))) (Nd (Nd (Nd (Nd (Lf 0x7400000) (Lf 0x7400000)) (Nd (Lf 0x7400000) (Lf 0x7400000))) (Nd (Nd
  (Lf 0x7400000) (Lf 0x7400000)) (Nd (Lf 0x7400000) (Lf 0x7400000)))) (Nd (Nd (Nd (Lf 0x7400000) (Lf
  0x7400000)) (Nd (Lf 0x7400000) (Lf 0x7400000))) (Nd (Nd (Lf 0x7400000) (Lf 0x7400000)) (Nd (Lf 0x7400000)
  (Lf 0x7400000)))))).
Definition up_194 : trie N :=
  (Nd (Nd (Nd (Nd (Nd (Lf 0x5000000) (Lf 0x5000000)) (Nd (Lf 0x7400000) (Lf 0x7400000))) (Nd (Nd (Lf
  0x7400000) (Lf 0x7400000)) (Nd (Lf 0x7400000) (Lf 0x7400000)))) (Nd (Nd (Nd (Lf 0x7400000) (Lf 0x3A4108DC))
  (Nd (Lf 0x3A8108DD) (Lf 0x7400000))) (Nd (Nd (Lf 0x7400000) (Lf 0x7400000)) (Nd (Lf 0x7400000) (Lf
  0x7400000))))) (Nd (Nd (Nd (Nd (Lf 0x7400000) (Lf 0x7400000)) (Nd (Lf 0x7400000) (Lf 0x7400000))) (Nd (Nd
  (Lf 0x7400000) (Lf 0x7400000)) (Nd (Lf 0x21000000) (Lf 0x21000000)))) (Nd (Nd (Nd (Lf 0x21000000) (Lf
  0x21000000)) (Nd (Lf 0x21000000) (Lf 0x21000000))) (Nd (Nd (Lf 0x21000000) (Lf 0x21000000)) (Nd (Lf
  0x21000000) (Lf 0x21000000)))))).
Definition up_195 : trie N :=
  (Nd (Nd (Nd (Nd (Nd (Lf 0x21000000) (Lf 0x21000000)) (Nd (Lf 0x21000000) (Lf 0x21000000))) (Nd (Nd (Lf
  0x21000000) (Lf 0x21000000)) (Nd (Lf 0x21000000) (Lf 0x21000000)))) (Nd (Nd (Nd (Lf 0x21000000) (Lf
  0x21000000)) (Nd (Lf 0x21000000) (Lf 0x21000000))) (Nd (Nd (Lf 0x21000000) (Lf 0x21000000)) (Nd (Lf
  0x21000000) (Lf 0x21000000))))) (Nd (Nd (Nd (Nd (Lf 0x21000000) (Lf 0x21000000)) (Nd (Lf 0x21000000) (Lf
  0x21000000))) (Nd (Nd (Lf 0x21000000) (Lf 0x21000000)) (Nd (Lf 0x21000000) (Lf 0x21000000)))) (Nd (Nd (Nd
  (Lf 0x21000000) (Lf 0x21000000)) (Nd (Lf 0x21000000) (Lf 0x21000000))) (Nd (Nd (Lf 0x21000000) (Lf
  0x21000000)) (Nd (Lf 0x21000000) (Lf 0x21000000)))))).
Definition up_196 : trie N :=
  (Nd (Nd (Nd (Nd (Nd (Lf 0x21000000) (Lf 0x21000000)) (Nd (Lf 0x21000000) (Lf 0x21000000))) (Nd (Nd (Lf
  0x21000000) (Lf 0x21000000)) (Nd (Lf 0x21000000) (Lf 0x21000000)))) (Nd (Nd (Nd (Lf 0x21000000) (Lf
  0x21000000)) (Nd (Lf 0x21000000) (Lf 0x21000000))) (Nd (Nd (Lf 0x21000000) (Lf 0x21000000)) (Nd (Lf
  0x21000000) (Lf 0x21000000))))) (Nd (Nd (Nd (Nd (Lf 0x21000000) (Lf 0x21000000)) (Nd (Lf 0x21000000) (Lf
  0x21000000))) (Nd (Nd (Lf 0x21000000) (Lf 0x21000000)) (Nd (Lf 0x21000000) (Lf 0x21000000)))) (Nd (Nd (Nd
  (Lf 0x21000000) (Lf 0x21000000)) (Nd (Lf 0x21000000) (Lf 0x7400000))) (Nd (Nd (Lf 0x5000000) (Lf 0x7400000))
  (Nd (Lf 0x7400000) (Lf 0x7400000)))))).
Definition up_197 : trie N :=
  (Nd (Nd (Nd (Nd (Nd (Lf 0x7400000) (Lf 0x7400000)) (Nd (Lf 0x7400000) (Lf 0x7400000))) (Nd (Nd (Lf
  0x7400000) (Lf 0x7400000)) (Nd (Lf 0x7400000) (Lf 0x7400000)))) (Nd (Nd (Nd (Lf 0x7400000) (Lf 0x7400000))
  (Nd (Lf 0x7400000) (Lf 0x7400000))) (Nd (Nd (Lf 0x7400000) (Lf 0x7400000)) (Nd (Lf 0x7400000) (Lf
  0x7400000))))) (Nd (Nd (Nd (Nd (Lf 0x7400000) (Lf 0x7400000)) (Nd (Lf 0x7400000) (Lf 0x7400000))) (Nd (Nd
  (Lf 0x7400000) (Lf 0x21000000)) (Nd (Lf 0x7400000) (Lf 0x7400000)))) (Nd (Nd (Nd (Lf 0x7400000) (Lf
  0x7400000)) (Nd (Lf 0x7400000) (Lf 0x5000000))) (Nd (Nd (Lf 0x5000000) (Lf 0x5000000)) (Nd (Lf 0x5000000)
  (Lf 0x5000000)))))).
Definition up_198 : trie N :=
  (Nd (Nd (Nd (Nd (Nd (Lf 0x5000000) (Lf 0x5000000)) (Nd (Lf 0x5000000) (Lf 0x5000000))) (Nd (Nd (Lf
  0x5000000) (Lf 0x5000000)) (Nd (Lf 0x5000000) (Lf 0x5000000)))) (Nd (Nd (Nd (Lf 0x5000000) (Lf 0x5000000))
  (Nd (Lf 0x5000000) (Lf 0x5000000))) (Nd (Nd (Lf 0x5000000) (Lf 0x5000000)) (Nd (Lf 0x5000000) (Lf
  0x5000000))))) (Nd (Nd (Nd (Nd (Lf 0x5000000) (Lf 0x5000000)) (Nd (Lf 0x5000000) (Lf 0x5000000))) (Nd (Nd
  (Lf 0x3000000) (Lf 0x3400000)) (Nd (Lf 0x2800000) (Lf 0x7400000)))) (Nd (Nd (Nd (Lf 0x7400000) (Lf
  0x7400000)) (Nd (Lf 0x7400000) (Lf 0x7400000))) (Nd (Nd (Lf 0x7400000) (Lf 0x7400000)) (Nd (Lf 0x7400000)
  (Lf 0x7400000)))))).
Definition up_199 : trie N :=
  (Nd (Nd (Nd (Nd (Nd (Lf 0x7400000) (Lf 0x7400000)) (Nd (Lf 0x7400000) (Lf 0x7400000))) (Nd (Nd (Lf
  0x7400000) (Lf 0x7400000)) (Nd (Lf 0x7400000) (Lf 0x7400000)))) (Nd (Nd (Nd (Lf 0x7400000) (Lf 0x7400000))
  (Nd (Lf 0x7400000) (Lf 0x7400000))) (Nd (Nd (Lf 0x7400000) (Lf 0x7400000)) (Nd (Lf 0x7400000) (Lf
  0x7400000))))) (Nd (Nd (Nd (Nd (Lf 0x7400000) (Lf 0x14400000)) (Nd (Lf 0x14400000) (Lf 0x14400000))) (Nd (Nd
  (Lf 0x14400000) (Lf 0x14400000)) (Nd (Lf 0x14400000) (Lf 0x14400000)))) (Nd (Nd (Nd (Lf 0x14400000) (Lf
  0x14400000)) (Nd (Lf 0x14400000) (Lf 0x14400000))) (Nd (Nd (Lf 0x14400000) (Lf 0x14400000)) (Nd (Lf
  0x14400000) (Lf 0x14400000)))))).
Definition up_200 : trie N :=
  (Nd (Nd (Nd (Nd (Nd (Lf 0x7400000) (Lf 0x7400000)) (Nd (Lf 0x7400000) (Lf 0x7400000))) (Nd (Nd (Lf
  0x7400000) (Lf 0x7400000)) (Nd (Lf 0x7400000) (Lf 0x14400000)))) (Nd (Nd (Nd (Lf 0x14400000) (Lf
  0x14400000)) (Nd (Lf 0x14400000) (Lf 0x14400000))) (Nd (Nd (Lf 0x14400000) (Lf 0x14400000)) (Nd (Lf
  0x14400000) (Lf 0x14400000))))) (Nd (Nd (Nd (Nd (Lf 0x14400000) (Lf 0x14400000)) (Nd (Lf 0x14400000) (Lf
  0x14400000))) (Nd (Nd (Lf 0x14400000) (Lf 0x14400000)) (Nd (Lf 0x14400000) (Lf 0x14400000)))) (Nd (Nd (Nd
  (Lf 0x14400000) (Lf 0x14400000)) (Nd (Lf 0x14400000) (Lf 0x14400000))) (Nd (Nd (Lf 0x14400000) (Lf
  0x14400000)) (Nd (Lf 0x14400000) (Lf 0x14400000)))))).
Definition up_201 : trie N :=
  (Nd (Nd (Nd (Nd (Nd (Lf 0x7400000) (Lf 0x7400000)) (Nd (Lf 0x7400000) (Lf 0x7400000))) (Nd (Nd (Lf
  0x7400000) (Lf 0x7400000)) (Nd (Lf 0x7400000) (Lf 0x7400000)))) (Nd (Nd (Nd (Lf 0x7400000) (Lf 0x7400000))
  (Nd (Lf 0x7400000) (Lf 0x14400000))) (Nd (Nd (Lf 0x14400000) (Lf 0x14400000)) (Nd (Lf 0x14400000) (Lf
  0x14400000))))) (Nd (Nd (Nd (Nd (Lf 0x14400000) (Lf 0x14400000)) (Nd (Lf 0x14400000) (Lf 0x14400000))) (Nd
  (Nd (Lf 0x14400000) (Lf 0x14400000)) (Nd (Lf 0x14400000) (Lf 0x14400000)))) (Nd (Nd (Nd (Lf 0x14400000) (Lf
  0x14400000)) (Nd (Lf 0x14400000) (Lf 0x14400000))) (Nd (Nd (Lf 0x14400000) (Lf 0x14400000)) (Nd (Lf
  0x14400000) (Lf 0x14400000)))))).
Definition up_202 : trie N :=
  (Nd (Nd (Nd (Nd (Nd (Lf 0x3AC108DE) (Lf 0x3AC108DF)) (Nd (Lf 0x3AC108E0) (Lf 0x3AC108E1))) (Nd (Nd (Lf
  0x3AC108E2) (Lf 0x3AC108E3)) (Nd (Lf 0x3AC108E4) (Lf 0x3AC108E5)))) (Nd (Nd (Nd (Lf 0x3AC108E6) (Lf
  0x36C208E7)) (Nd (Lf 0x36C208E9) (Lf 0x36C208EB))) (Nd (Nd (Lf 0x36C208ED) (Lf 0x36C208EF)) (Nd (Lf
  0x36C208F1) (Lf 0x36C208F3))))) (Nd (Nd (Nd (Nd (Lf 0x36C208F5) (Lf 0x36C208F7)) (Nd (Lf 0x36C208F9) (Lf
  0x36C208FB))) (Nd (Nd (Lf 0x3B0308FD) (Lf 0x3B030900)) (Nd (Lf 0x3B030903) (Lf 0x3B030906)))) (Nd (Nd (Nd
  (Lf 0x3B030909) (Lf 0x3B03090C)) (Nd (Lf 0x3B03090F) (Lf 0x3B030912))) (Nd (Nd (Lf 0x3B030915) (Lf
  0x36C40918)) (Nd (Lf 0x36C4091C) (Lf 0x36C40920)))))).
Definition up_203 : trie N :=
  (Nd (Nd (Nd (Nd (Nd (Lf 0x36C40924) (Lf 0x36C40928)) (Nd (Lf 0x36C4092C) (Lf 0x36C40930))) (Nd (Nd (Lf
  0x36C40934) (Lf 0x36C40938)) (Nd (Lf 0x36C4093C) (Lf 0x36C40940)))) (Nd (Nd (Nd (Lf 0x3B420944) (Lf
  0x3B420946)) (Nd (Lf 0x3B420948) (Lf 0x3B42094A))) (Nd (Nd (Lf 0x3B42094C) (Lf 0x3B42094E)) (Nd (Lf
  0x3B420950) (Lf 0x3B420952))))) (Nd (Nd (Nd (Nd (Lf 0x3B420954) (Lf 0x36C30956)) (Nd (Lf 0x36C30959) (Lf
  0x36C3095C))) (Nd (Nd (Lf 0x36C3095F) (Lf 0x36C30962)) (Nd (Lf 0x36C30965) (Lf 0x36C30968)))) (Nd (Nd (Nd
  (Lf 0x36C3096B) (Lf 0x36C3096E)) (Nd (Lf 0x36C30971) (Lf 0x36C30974))) (Nd (Nd (Lf 0x3B830977) (Lf
  0x3B83097A)) (Nd (Lf 0x3B83097D) (Lf 0x3B830980)))))).
Definition up_204 : trie N :=
  (Nd (Nd (Nd (Nd (Nd (Lf 0x3B830983) (Lf 0x3B830986)) (Nd (Lf 0x3B830989) (Lf 0x3B83098C))) (Nd (Nd (Lf
  0x3B83098F) (Lf 0x3B830992)) (Nd (Lf 0x3B830995) (Lf 0x3B830998)))) (Nd (Nd (Nd (Lf 0x3B83099B) (Lf
  0x3B83099E)) (Nd (Lf 0x3B8309A1) (Lf 0x3B8309A4))) (Nd (Nd (Lf 0x3B8309A7) (Lf 0x3B8309AA)) (Nd (Lf
  0x3B8309AD) (Lf 0x3B8309B0))))) (Nd (Nd (Nd (Nd (Lf 0x3B8309B3) (Lf 0x3B8309B6)) (Nd (Lf 0x3B8309B9) (Lf
  0x3B8309BC))) (Nd (Nd (Lf 0x3B8309BF) (Lf 0x3B8309C2)) (Nd (Lf 0x3BC109C5) (Lf 0x3BC109C6)))) (Nd (Nd (Nd
  (Lf 0x3BC109C7) (Lf 0x3BC109C8)) (Nd (Lf 0x3BC109C9) (Lf 0x3BC109CA))) (Nd (Nd (Lf 0x3BC109CB) (Lf
  0x3BC109CC)) (Nd (Lf 0x3BC109CD) (Lf 0x3BC109CE)))))).
Definition up_205 : trie N :=
  (Nd (Nd (Nd (Nd (Nd (Lf 0x3BC109CF) (Lf 0x3BC109D0)) (Nd (Lf 0x3BC109D1) (Lf 0x3BC109D2))) (Nd (Nd (Lf
  0x3BC109D3) (Lf 0x3BC109D4)) (Nd (Lf 0x3BC109D5) (Lf 0x3BC109D6)))) (Nd (Nd (Nd (Lf 0x3BC109D7) (Lf
  0x3BC109D8)) (Nd (Lf 0x3BC109D9) (Lf 0x3BC109DA))) (Nd (Nd (Lf 0x3BC109DB) (Lf 0x3BC109DC)) (Nd (Lf
  0x3BC109DD) (Lf 0x3BC109DE))))) (Nd (Nd (Nd (Nd (Lf 0x3C0109DF) (Lf 0x3C0109E0)) (Nd (Lf 0x3C0109E1) (Lf
  0x3C0109E2))) (Nd (Nd (Lf 0x3C0109E3) (Lf 0x3C0109E4)) (Nd (Lf 0x3C0109E5) (Lf 0x3C0109E6)))) (Nd (Nd (Nd
  (Lf 0x3C0109E7) (Lf 0x3C0109E8)) (Nd (Lf 0x3C0109E9) (Lf 0x3C0109EA))) (Nd (Nd (Lf 0x3C0109EB) (Lf
  0x3C0109EC)) (Nd (Lf 0x3C0109ED) (Lf 0x3C0109EE)))))).
Definition up_206 : trie N :=
  (Nd (Nd (Nd (Nd (Nd (Lf 0x3C0109EF) (Lf 0x3C0109F0)) (Nd (Lf 0x3C0109F1) (Lf 0x3C0109F2))) (Nd (Nd (Lf
  0x3C0109F3) (Lf 0x3C0109F4)) (Nd (Lf 0x3C0109F5) (Lf 0x3C0109F6)))) (Nd (Nd (Nd (Lf 0x3C0109F7) (Lf
  0x3C0109F8)) (Nd (Lf 0x36C109F9) (Lf 0x2C000000))) (Nd (Nd (Lf 0x2C000000) (Lf 0x2C000000)) (Nd (Lf
  0x2C000000) (Lf 0x2C000000))))) (Nd (Nd (Nd (Nd (Lf 0x2C000000) (Lf 0x2C000000)) (Nd (Lf 0x2C000000) (Lf
  0x2C000000))) (Nd (Nd (Lf 0x2C000000) (Lf 0x3C400000)) (Nd (Lf 0x3C400000) (Lf 0x3C400000)))) (Nd (Nd (Nd
  (Lf 0x3C400000) (Lf 0x3C400000)) (Nd (Lf 0x3C400000) (Lf 0x3C400000))) (Nd (Nd (Lf 0x3C400000) (Lf
  0x3C400000)) (Nd (Lf 0x2C000000) (Lf 0x2C000000)))))).
Definition up_207 : trie N :=
  (Nd (Nd (Nd (Nd (Nd (Lf 0x7400000) (Lf 0x7400000)) (Nd (Lf 0x7400000) (Lf 0x7400000))) (Nd (Nd (Lf
  0x7400000) (Lf 0x7400000)) (Nd (Lf 0x7400000) (Lf 0x7400000)))) (Nd (Nd (Nd (Lf 0x7400000) (Lf 0x7400000))
  (Nd (Lf 0x7400000) (Lf 0x7400000))) (Nd (Nd (Lf 0x7400000) (Lf 0x7400000)) (Nd (Lf 0x7400000) (Lf
  0x7400000))))) (Nd (Nd (Nd (Nd (Lf 0x7400000) (Lf 0x7400000)) (Nd (Lf 0x7400000) (Lf 0x7400000))) (Nd (Nd
  (Lf 0x7400000) (Lf 0x7400000)) (Nd (Lf 0x7400000) (Lf 0x5000000)))) (Nd (Nd (Nd (Lf 0x7400000) (Lf
  0x7400000)) (Nd (Lf 0x7400000) (Lf 0x7400000))) (Nd (Nd (Lf 0x7400000) (Lf 0x7400000)) (Nd (Lf 0x7400000)
  (Lf 0x7400000)))))).
Definition up_208 : trie N :=
  (Nd (Nd (Nd (Nd (Nd (Lf 0x7400000) (Lf 0x5000000)) (Nd (Lf 0x7400000) (Lf 0x7400000))) (Nd (Nd (Lf
  0x7400000) (Lf 0x7400000)) (Nd (Lf 0x7400000) (Lf 0x7400000)))) (Nd (Nd (Nd (Lf 0x7400000) (Lf 0x7400000))
  (Nd (Lf 0x7400000) (Lf 0x7400000))) (Nd (Nd (Lf 0x7400000) (Lf 0x7400000)) (Nd (Lf 0x7400000) (Lf
  0x7400000))))) (Nd (Nd (Nd (Nd (Lf 0x7400000) (Lf 0x7400000)) (Nd (Lf 0x7400000) (Lf 0x7400000))) (Nd (Nd
  (Lf 0x7400000) (Lf 0x7400000)) (Nd (Lf 0x7400000) (Lf 0x7400000)))) (Nd (Nd (Nd (Lf 0x7400000) (Lf
  0x7400000)) (Nd (Lf 0x7400000) (Lf 0x7400000))) (Nd (Nd (Lf 0x7400000) (Lf 0x7400000)) (Nd (Lf 0x7400000)
  (Lf 0x7400000)))))).
Definition up_209 : trie N :=
  (Nd (Nd (Nd (Nd (Nd (Lf 0x7400000) (Lf 0x7400000)) (Nd (Lf 0x7400000) (Lf 0x7400000))) (Nd (Nd (Lf
  0x7400000) (Lf 0x7400000)) (Nd (Lf 0x7400000) (Lf 0x7400000)))) (Nd (Nd (Nd (Lf 0x7400000) (Lf 0x7400000))
  (Nd (Lf 0x7400000) (Lf 0x7400000))) (Nd (Nd (Lf 0x7400000) (Lf 0x7400000)) (Nd (Lf 0x7400000) (Lf
  0x7400000))))) (Nd (Nd (Nd (Nd (Lf 0x7400000) (Lf 0x7400000)) (Nd (Lf 0x7400000) (Lf 0x7400000))) (Nd (Nd
  (Lf 0x7400000) (Lf 0x7400000)) (Nd (Lf 0x7400000) (Lf 0x7400000)))) (Nd (Nd (Nd (Lf 0x5000000) (Lf
  0x5000000)) (Nd (Lf 0x5000000) (Lf 0x5000000))) (Nd (Nd (Lf 0x5000000) (Lf 0x5000000)) (Nd (Lf 0x5000000)
  (Lf 0x5000000)))))).
Definition up_210 : trie N :=
  (Nd (Nd (Nd (Nd (Nd (Lf 0x7400000) (Lf 0x7400000)) (Nd (Lf 0x7400000) (Lf 0x7400000))) (Nd (Nd (Lf
  0x7400000) (Lf 0x7400000)) (Nd (Lf 0x7400000) (Lf 0x7400000)))) (Nd (Nd (Nd (Lf 0x7400000) (Lf 0x7400000))
  (Nd (Lf 0x7400000) (Lf 0x7400000))) (Nd (Nd (Lf 0x7400000) (Lf 0x7400000)) (Nd (Lf 0x7400000) (Lf
  0x7400000))))) (Nd (Nd (Nd (Nd (Lf 0x7400000) (Lf 0x7400000)) (Nd (Lf 0x7400000) (Lf 0x7400000))) (Nd (Nd
  (Lf 0x7400000) (Lf 0x7400000)) (Nd (Lf 0x7400000) (Lf 0x7400000)))) (Nd (Nd (Nd (Lf 0x14400000) (Lf
  0x7400000)) (Nd (Lf 0x7400000) (Lf 0x7400000))) (Nd (Nd (Lf 0x7400000) (Lf 0x7400000)) (Nd (Lf 0x7400000)
  (Lf 0x7400000)))))).
Definition up_211 : trie N :=
  (Nd (Nd (Nd (Nd (Nd (Lf 0x7400000) (Lf 0x7400000)) (Nd (Lf 0x7400000) (Lf 0x7400000))) (Nd (Nd (Lf
  0x7400000) (Lf 0x7400000)) (Nd (Lf 0x7400000) (Lf 0x7400000)))) (Nd (Nd (Nd (Lf 0x7400000) (Lf 0x7400000))
  (Nd (Lf 0x7400000) (Lf 0x7400000))) (Nd (Nd (Lf 0x7400000) (Lf 0x7400000)) (Nd (Lf 0x7400000) (Lf
  0x5000000))))) (Nd (Nd (Nd (Nd (Lf 0x7400000) (Lf 0x7400000)) (Nd (Lf 0x7400000) (Lf 0x7400000))) (Nd (Nd
  (Lf 0x7400000) (Lf 0x7400000)) (Nd (Lf 0x7400000) (Lf 0x7400000)))) (Nd (Nd (Nd (Lf 0x7400000) (Lf
  0x7400000)) (Nd (Lf 0x7400000) (Lf 0x7400000))) (Nd (Nd (Lf 0x7400000) (Lf 0x7400000)) (Nd (Lf 0x14400000)
  (Lf 0x14400000)))))).
Definition up_212 : trie N :=
  (Nd (Nd (Nd (Nd (Nd (Lf 0x7400000) (Lf 0x7400000)) (Nd (Lf 0x7400000) (Lf 0x7400000))) (Nd (Nd (Lf
  0x7400000) (Lf 0x7400000)) (Nd (Lf 0x7400000) (Lf 0x7400000)))) (Nd (Nd (Nd (Lf 0x7400000) (Lf 0x7400000))
  (Nd (Lf 0x7400000) (Lf 0x7400000))) (Nd (Nd (Lf 0x7400000) (Lf 0x7400000)) (Nd (Lf 0x7400000) (Lf
  0x7400000))))) (Nd (Nd (Nd (Nd (Lf 0x7400000) (Lf 0x7400000)) (Nd (Lf 0x14400000) (Lf 0x14400000))) (Nd (Nd
  (Lf 0x14400000) (Lf 0x14400000)) (Nd (Lf 0x14400000) (Lf 0x14400000)))) (Nd (Nd (Nd (Lf 0x14400000) (Lf
  0x14400000)) (Nd (Lf 0x14400000) (Lf 0x14400000))) (Nd (Nd (Lf 0x14400000) (Lf 0x14400000)) (Nd (Lf
  0x14400000) (Lf 0x14400000)))))).
Definition up_213 : trie N :=
  (Nd (Nd (Nd (Nd (Nd (Lf 0x7400000) (Lf 0x7400000)) (Nd (Lf 0x14400000) (Lf 0x14400000))) (Nd (Nd (Lf
  0x14400000) (Lf 0x14400000)) (Nd (Lf 0x14400000) (Lf 0x14400000)))) (Nd (Nd (Nd (Lf 0x14400000) (Lf
  0x14400000)) (Nd (Lf 0x14400000) (Lf 0x14400000))) (Nd (Nd (Lf 0x14400000) (Lf 0x14400000)) (Nd (Lf
  0x14400000) (Lf 0x14400000))))) (Nd (Nd (Nd (Nd (Lf 0x14400000) (Lf 0x14400000)) (Nd (Lf 0x14400000) (Lf
  0x14400000))) (Nd (Nd (Lf 0x14400000) (Lf 0x14400000)) (Nd (Lf 0x14400000) (Lf 0x14400000)))) (Nd (Nd (Nd
  (Lf 0x14400000) (Lf 0x14400000)) (Nd (Lf 0x14400000) (Lf 0x14400000))) (Nd (Nd (Lf 0x14400000) (Lf
  0x14400000)) (Nd (Lf 0x14400000) (Lf 0x14400000)))))).
Definition up_214 : trie N :=
  (Nd (Nd (Nd (Nd (Nd (Lf 0x14400000) (Lf 0x7400000)) (Nd (Lf 0x7400000) (Lf 0x7400000))) (Nd (Nd (Lf
  0x7400000) (Lf 0x14400000)) (Nd (Lf 0x7400000) (Lf 0x7400000)))) (Nd (Nd (Nd (Lf 0x7400000) (Lf 0x7400000))
  (Nd (Lf 0x14400000) (Lf 0x14400000))) (Nd (Nd (Lf 0x7400000) (Lf 0x7400000)) (Nd (Lf 0x7400000) (Lf
  0x7400000))))) (Nd (Nd (Nd (Nd (Lf 0x7400000) (Lf 0x7400000)) (Nd (Lf 0x7400000) (Lf 0x7400000))) (Nd (Nd
  (Lf 0x7400000) (Lf 0x7400000)) (Nd (Lf 0x7400000) (Lf 0x7400000)))) (Nd (Nd (Nd (Lf 0x7400000) (Lf
  0x7400000)) (Nd (Lf 0x7400000) (Lf 0x7400000))) (Nd (Nd (Lf 0x7400000) (Lf 0x7400000)) (Nd (Lf 0x7400000)
  (Lf 0x7400000)))))).
Definition up_215 : trie N :=
  (Nd (Nd (Nd (Nd (Nd (Lf 0x7400000) (Lf 0x7400000)) (Nd (Lf 0x7400000) (Lf 0x7400000))) (Nd (Nd (Lf
  0x7400000) (Lf 0x7400000)) (Nd (Lf 0x7400000) (Lf 0x7400000)))) (Nd (Nd (Nd (Lf 0x14400000) (Lf 0x7400000))
  (Nd (Lf 0x7400000) (Lf 0x7400000))) (Nd (Nd (Lf 0x7400000) (Lf 0x7400000)) (Nd (Lf 0x7400000) (Lf
  0x7400000))))) (Nd (Nd (Nd (Nd (Lf 0x7400000) (Lf 0x7400000)) (Nd (Lf 0x7400000) (Lf 0x7400000))) (Nd (Nd
  (Lf 0x7400000) (Lf 0x7400000)) (Nd (Lf 0x7400000) (Lf 0x7400000)))) (Nd (Nd (Nd (Lf 0x7400000) (Lf
  0x7400000)) (Nd (Lf 0x7400000) (Lf 0x7400000))) (Nd (Nd (Lf 0x7400000) (Lf 0x7400000)) (Nd (Lf 0x7400000)
  (Lf 0x7400000)))))).
Definition up_216 : trie N :=
  (Nd (Nd (Nd (Nd (Nd (Lf 0x7400000) (Lf 0x7400000)) (Nd (Lf 0x7400000) (Lf 0x7400000))) (Nd (Nd (Lf
  0x7400000) (Lf 0x7400000)) (Nd (Lf 0x7400000) (Lf 0x7400000)))) (Nd (Nd (Nd (Lf 0x7400000) (Lf 0x7400000))
  (Nd (Lf 0x7400000) (Lf 0x7400000))) (Nd (Nd (Lf 0x14400000) (Lf 0x7400000)) (Nd (Lf 0x14400000) (Lf
  0x7400000))))) (Nd (Nd (Nd (Nd (Lf 0x7400000) (Lf 0x7400000)) (Nd (Lf 0x7400000) (Lf 0x14400000))) (Nd (Nd
  (Lf 0x14400000) (Lf 0x14400000)) (Nd (Lf 0x7400000) (Lf 0x14400000)))) (Nd (Nd (Nd (Lf 0x7400000) (Lf
  0x7400000)) (Nd (Lf 0x7400000) (Lf 0x7400000))) (Nd (Nd (Lf 0x7400000) (Lf 0x7400000)) (Nd (Lf 0x7400000)
  (Lf 0x14400000)))))).
Definition up_217 : trie N :=
  (Nd (Nd (Nd (Nd (Nd (Lf 0x14400000) (Lf 0x7400000)) (Nd (Lf 0x7400000) (Lf 0x7400000))) (Nd (Nd (Lf
  0x7400000) (Lf 0x7400000)) (Nd (Lf 0x7400000) (Lf 0x7400000)))) (Nd (Nd (Nd (Lf 0x3000000) (Lf 0x3400000))
  (Nd (Lf 0x3000000) (Lf 0x3400000))) (Nd (Nd (Lf 0x3000000) (Lf 0x3400000)) (Nd (Lf 0x34800000) (Lf
  0x3C800000))))) (Nd (Nd (Nd (Nd (Lf 0x3000000) (Lf 0x3400000)) (Nd (Lf 0x3000000) (Lf 0x3400000))) (Nd (Nd
  (Lf 0x3000000) (Lf 0x3400000)) (Nd (Lf 0x3CC00000) (Lf 0x3CC00000)))) (Nd (Nd (Nd (Lf 0x3CC00000) (Lf
  0x3CC00000)) (Nd (Lf 0x3CC00000) (Lf 0x3CC00000))) (Nd (Nd (Lf 0x3CC00000) (Lf 0x3CC00000)) (Nd (Lf
  0x3CC00000) (Lf 0x2C000000)))))).
Definition up_218 : trie N :=
  (Nd (Nd (Nd (Nd (Nd (Lf 0x3D000000) (Lf 0x3D000000)) (Nd (Lf 0x3D000000) (Lf 0x3D000000))) (Nd (Nd (Lf
  0x3D000000) (Lf 0x3D000000)) (Nd (Lf 0x3D000000) (Lf 0x3D000000)))) (Nd (Nd (Nd (Lf 0x3D000000) (Lf
  0x2C000000)) (Nd (Lf 0x3D400000) (Lf 0x3D400000))) (Nd (Nd (Lf 0x3D400000) (Lf 0x3D400000)) (Nd (Lf
  0x3D400000) (Lf 0x3D400000))))) (Nd (Nd (Nd (Nd (Lf 0x3D400000) (Lf 0x3D400000)) (Nd (Lf 0x3D400000) (Lf
  0x2C000000))) (Nd (Nd (Lf 0x7400000) (Lf 0x14400000)) (Nd (Lf 0x14400000) (Lf 0x14400000)))) (Nd (Nd (Nd (Lf
  0x7400000) (Lf 0x7400000)) (Nd (Lf 0x7400000) (Lf 0x7400000))) (Nd (Nd (Lf 0x7400000) (Lf 0x7400000)) (Nd
  (Lf 0x7400000) (Lf 0x7400000)))))).
Definition up_219 : trie N :=
  (Nd (Nd (Nd (Nd (Nd (Lf 0x7400000) (Lf 0x7400000)) (Nd (Lf 0x7400000) (Lf 0x7400000))) (Nd (Nd (Lf
  0x7400000) (Lf 0x7400000)) (Nd (Lf 0x7400000) (Lf 0x7400000)))) (Nd (Nd (Nd (Lf 0x7400000) (Lf 0x7400000))
  (Nd (Lf 0x7400000) (Lf 0x7400000))) (Nd (Nd (Lf 0x7400000) (Lf 0x7400000)) (Nd (Lf 0x7400000) (Lf
  0x7400000))))) (Nd (Nd (Nd (Nd (Lf 0x14400000) (Lf 0x7400000)) (Nd (Lf 0x7400000) (Lf 0x7400000))) (Nd (Nd
  (Lf 0x7400000) (Lf 0x7400000)) (Nd (Lf 0x7400000) (Lf 0x7400000)))) (Nd (Nd (Nd (Lf 0x7400000) (Lf
  0x7400000)) (Nd (Lf 0x7400000) (Lf 0x7400000))) (Nd (Nd (Lf 0x7400000) (Lf 0x7400000)) (Nd (Lf 0x7400000)
  (Lf 0x14400000)))))).
Definition up_220 : trie N :=
  (Nd (Nd (Nd (Nd (Nd (Lf 0x14400000) (Lf 0x14400000)) (Nd (Lf 0x14400000) (Lf 0x14400000))) (Nd (Nd (Lf
  0x14400000) (Lf 0x14400000)) (Nd (Lf 0x14400000) (Lf 0x14400000)))) (Nd (Nd (Nd (Lf 0x14400000) (Lf
  0x14400000)) (Nd (Lf 0x14400000) (Lf 0x14400000))) (Nd (Nd (Lf 0x14400000) (Lf 0x14400000)) (Nd (Lf
  0x14400000) (Lf 0x14400000))))) (Nd (Nd (Nd (Nd (Lf 0x5000000) (Lf 0x5000000)) (Nd (Lf 0x5000000) (Lf
  0x5000000))) (Nd (Nd (Lf 0x5000000) (Lf 0x5000000)) (Nd (Lf 0x5000000) (Lf 0x5000000)))) (Nd (Nd (Nd (Lf
  0x5000000) (Lf 0x5000000)) (Nd (Lf 0x5000000) (Lf 0x5000000))) (Nd (Nd (Lf 0x5000000) (Lf 0x5000000)) (Nd
  (Lf 0x5000000) (Lf 0x5000000)))))).
Definition up_221 : trie N :=
  (Nd (Nd (Nd (Nd (Nd (Lf 0x5000000) (Lf 0x5000000)) (Nd (Lf 0x5000000) (Lf 0x5000000))) (Nd (Nd (Lf
  0x5000000) (Lf 0x5000000)) (Nd (Lf 0x3000000) (Lf 0x3400000)))) (Nd (Nd (Nd (Lf 0x3000000) (Lf 0x3400000))
  (Nd (Lf 0x3000000) (Lf 0x3400000))) (Nd (Nd (Lf 0x14400000) (Lf 0x14400000)) (Nd (Lf 0x14400000) (Lf
  0x14400000))))) (Nd (Nd (Nd (Nd (Lf 0x5000000) (Lf 0x5000000)) (Nd (Lf 0x5000000) (Lf 0x5000000))) (Nd (Nd
  (Lf 0x5000000) (Lf 0x5000000)) (Nd (Lf 0x5000000) (Lf 0x5000000)))) (Nd (Nd (Nd (Lf 0x5000000) (Lf
  0x5000000)) (Nd (Lf 0x5000000) (Lf 0x5000000))) (Nd (Nd (Lf 0x5000000) (Lf 0x5000000)) (Nd (Lf 0x5000000)
  (Lf 0x5000000)))))).
Definition up_222 : trie N :=
  (Nd (Nd (Nd (Nd (Nd (Lf 0x5000000) (Lf 0x5000000)) (Nd (Lf 0x5000000) (Lf 0x3000000))) (Nd (Nd (Lf
  0x3400000) (Lf 0x3000000)) (Nd (Lf 0x3400000) (Lf 0x3000000)))) (Nd (Nd (Nd (Lf 0x3400000) (Lf 0x3000000))
  (Nd (Lf 0x3400000) (Lf 0x3000000))) (Nd (Nd (Lf 0x3400000) (Lf 0x3000000)) (Nd (Lf 0x3400000) (Lf
  0x3000000))))) (Nd (Nd (Nd (Nd (Lf 0x3400000) (Lf 0x3000000)) (Nd (Lf 0x3400000) (Lf 0x3000000))) (Nd (Nd
  (Lf 0x3400000) (Lf 0x3000000)) (Nd (Lf 0x3400000) (Lf 0x3000000)))) (Nd (Nd (Nd (Lf 0x3400000) (Lf
  0x5000000)) (Nd (Lf 0x5000000) (Lf 0x5000000))) (Nd (Nd (Lf 0x5000000) (Lf 0x5000000)) (Nd (Lf 0x5000000)
  (Lf 0x5000000)))))).
Definition up_223 : trie N :=
  (Nd (Nd (Nd (Nd (Nd (Lf 0x5000000) (Lf 0x5000000)) (Nd (Lf 0x5000000) (Lf 0x5000000))) (Nd (Nd (Lf
  0x5000000) (Lf 0x5000000)) (Nd (Lf 0x5000000) (Lf 0x5000000)))) (Nd (Nd (Nd (Lf 0x5000000) (Lf 0x5000000))
  (Nd (Lf 0x5000000) (Lf 0x5000000))) (Nd (Nd (Lf 0x5000000) (Lf 0x5000000)) (Nd (Lf 0x5000000) (Lf
  0x5000000))))) (Nd (Nd (Nd (Nd (Lf 0x5000000) (Lf 0x5000000)) (Nd (Lf 0x5000000) (Lf 0x5000000))) (Nd (Nd
  (Lf 0x5000000) (Lf 0x5000000)) (Nd (Lf 0x5000000) (Lf 0x5000000)))) (Nd (Nd (Nd (Lf 0x3000000) (Lf
  0x3400000)) (Nd (Lf 0x3000000) (Lf 0x3400000))) (Nd (Nd (Lf 0x5000000) (Lf 0x5000000)) (Nd (Lf 0x5000000)
  (Lf 0x5000000)))))).
Definition up_224 : trie N :=
  (Nd (Nd (Nd (Nd (Nd (Lf 0x5000000) (Lf 0x5000000)) (Nd (Lf 0x5000000) (Lf 0x5000000))) (Nd (Nd (Lf
  0x5000000) (Lf 0x5000000)) (Nd (Lf 0x5000000) (Lf 0x5000000)))) (Nd (Nd (Nd (Lf 0x5000000) (Lf 0x5000000))
  (Nd (Lf 0x5000000) (Lf 0x5000000))) (Nd (Nd (Lf 0x5000000) (Lf 0x5000000)) (Nd (Lf 0x5000000) (Lf
  0x5000000))))) (Nd (Nd (Nd (Nd (Lf 0x5000000) (Lf 0x5000000)) (Nd (Lf 0x5000000) (Lf 0x5000000))) (Nd (Nd
  (Lf 0x5000000) (Lf 0x5000000)) (Nd (Lf 0x5000000) (Lf 0x5000000)))) (Nd (Nd (Nd (Lf 0x5000000) (Lf
  0x5000000)) (Nd (Lf 0x5000000) (Lf 0x5000000))) (Nd (Nd (Lf 0x3000000) (Lf 0x3400000)) (Nd (Lf 0x5000000)
  (Lf 0x5000000)))))).
Definition up_225 : trie N :=
  (Nd (Nd (Nd (Nd (Nd (Lf 0x5000000) (Lf 0x5000000)) (Nd (Lf 0x5000000) (Lf 0x5000000))) (Nd (Nd (Lf
  0x5000000) (Lf 0x5000000)) (Nd (Lf 0x5000000) (Lf 0x5000000)))) (Nd (Nd (Nd (Lf 0x5000000) (Lf 0x5000000))
  (Nd (Lf 0x5000000) (Lf 0x5000000))) (Nd (Nd (Lf 0x378409FA) (Lf 0x5000000)) (Nd (Lf 0x5000000) (Lf
  0x5000000))))) (Nd (Nd (Nd (Nd (Lf 0x5000000) (Lf 0x5000000)) (Nd (Lf 0x5000000) (Lf 0x5000000))) (Nd (Nd
  (Lf 0x5000000) (Lf 0x5000000)) (Nd (Lf 0x5000000) (Lf 0x5000000)))) (Nd (Nd (Nd (Lf 0x5000000) (Lf
  0x5000000)) (Nd (Lf 0x5000000) (Lf 0x5000000))) (Nd (Nd (Lf 0x5000000) (Lf 0x5000000)) (Nd (Lf 0x5000000)
  (Lf 0x5000000)))))).
Definition up_226 : trie N :=
  (Nd (Nd (Nd (Nd (Nd (Lf 0x5000000) (Lf 0x5000000)) (Nd (Lf 0x5000000) (Lf 0x5000000))) (Nd (Nd (Lf
  0x5000000) (Lf 0x5000000)) (Nd (Lf 0x5000000) (Lf 0x5000000)))) (Nd (Nd (Nd (Lf 0x5000000) (Lf 0x5000000))
  (Nd (Lf 0x5000000) (Lf 0x5000000))) (Nd (Nd (Lf 0x5000000) (Lf 0x5000000)) (Nd (Lf 0x5000000) (Lf
  0x5000000))))) (Nd (Nd (Nd (Nd (Lf 0x5000000) (Lf 0x5000000)) (Nd (Lf 0x5000000) (Lf 0x5000000))) (Nd (Nd
  (Lf 0x378309FE) (Lf 0x37820A01)) (Nd (Lf 0x37830A03) (Lf 0x5000000)))) (Nd (Nd (Nd (Lf 0x5000000) (Lf
  0x5000000)) (Nd (Lf 0x5000000) (Lf 0x5000000))) (Nd (Nd (Lf 0x5000000) (Lf 0x5000000)) (Nd (Lf 0x5000000)
  (Lf 0x5000000)))))).
Definition up_227 : trie N :=
  (Nd (Nd (Nd (Nd (Nd (Lf 0x5000000) (Lf 0x5000000)) (Nd (Lf 0x5000000) (Lf 0x5000000))) (Nd (Nd (Lf
  0x5000000) (Lf 0x5000000)) (Nd (Lf 0x5000000) (Lf 0x5000000)))) (Nd (Nd (Nd (Lf 0x5000000) (Lf 0x5000000))
  (Nd (Lf 0x5000000) (Lf 0x5000000))) (Nd (Nd (Lf 0x5000000) (Lf 0x5000000)) (Nd (Lf 0x5000000) (Lf
  0x5000000))))) (Nd (Nd (Nd (Nd (Lf 0x5000000) (Lf 0x5000000)) (Nd (Lf 0x5000000) (Lf 0x5000000))) (Nd (Nd
  (Lf 0x5000000) (Lf 0x5000000)) (Nd (Lf 0x5000000) (Lf 0x5000000)))) (Nd (Nd (Nd (Lf 0x5000000) (Lf
  0x5000000)) (Nd (Lf 0x5000000) (Lf 0x5000000))) (Nd (Nd (Lf 0x39820A06) (Lf 0x5000000)) (Nd (Lf 0x5000000)
  (Lf 0x5000000)))))).
Definition up_228 : trie N :=
  (Nd (Nd (Nd (Nd (Nd (Lf 0x7400000) (Lf 0x7400000)) (Nd (Lf 0x7400000) (Lf 0x7400000))) (Nd (Nd (Lf
  0x7400000) (Lf 0x7400000)) (Nd (Lf 0x7400000) (Lf 0x7400000)))) (Nd (Nd (Nd (Lf 0x7400000) (Lf 0x7400000))
  (Nd (Lf 0x7400000) (Lf 0x7400000))) (Nd (Nd (Lf 0x7400000) (Lf 0x7400000)) (Nd (Lf 0x14400000) (Lf
  0x14400000))))) (Nd (Nd (Nd (Nd (Lf 0x14400000) (Lf 0x14400000)) (Nd (Lf 0x14400000) (Lf 0x14400000))) (Nd
  (Nd (Lf 0x14400000) (Lf 0x14400000)) (Nd (Lf 0x14400000) (Lf 0x14400000)))) (Nd (Nd (Nd (Lf 0x14400000) (Lf
  0x14400000)) (Nd (Lf 0x14400000) (Lf 0x14400000))) (Nd (Nd (Lf 0x14400000) (Lf 0x14400000)) (Nd (Lf
  0x14400000) (Lf 0x14400000)))))).
Definition up_229 : trie N :=
  (Nd (Nd (Nd (Nd (Nd (Lf 0x7400000) (Lf 0x7400000)) (Nd (Lf 0x7400000) (Lf 0x7400000))) (Nd (Nd (Lf
  0x7400000) (Lf 0x7400000)) (Nd (Lf 0x7400000) (Lf 0x7400000)))) (Nd (Nd (Nd (Lf 0x7400000) (Lf 0x7400000))
  (Nd (Lf 0x7400000) (Lf 0x7400000))) (Nd (Nd (Lf 0x7400000) (Lf 0x7400000)) (Nd (Lf 0x7400000) (Lf
  0x7400000))))) (Nd (Nd (Nd (Nd (Lf 0x7400000) (Lf 0x7400000)) (Nd (Lf 0x7400000) (Lf 0x7400000))) (Nd (Nd
  (Lf 0x7400000) (Lf 0x7400000)) (Nd (Lf 0x7400000) (Lf 0x7400000)))) (Nd (Nd (Nd (Lf 0x7400000) (Lf
  0x7400000)) (Nd (Lf 0x14400000) (Lf 0x7400000))) (Nd (Nd (Lf 0x7400000) (Lf 0x7400000)) (Nd (Lf 0x7400000)
  (Lf 0x38C10A08)))))).
Definition up_230 : trie N :=
  (Nd (Nd (Nd (Nd (Nd (Lf 0x7400000) (Lf 0x7400000)) (Nd (Lf 0x7400000) (Lf 0x7400000))) (Nd (Nd (Lf
  0x7400000) (Lf 0x7400000)) (Nd (Lf 0x7400000) (Lf 0x7400000)))) (Nd (Nd (Nd (Lf 0x7400000) (Lf 0x7400000))
  (Nd (Lf 0x7400000) (Lf 0x7400000))) (Nd (Nd (Lf 0x7400000) (Lf 0x7400000)) (Nd (Lf 0x7400000) (Lf
  0x7400000))))) (Nd (Nd (Nd (Nd (Lf 0x7400000) (Lf 0x7400000)) (Nd (Lf 0x7400000) (Lf 0x38C10A09))) (Nd (Nd
  (Lf 0x14400000) (Lf 0x14400000)) (Nd (Lf 0x14400000) (Lf 0x14400000)))) (Nd (Nd (Nd (Lf 0x14400000) (Lf
  0x14400000)) (Nd (Lf 0x14400000) (Lf 0x14400000))) (Nd (Nd (Lf 0x14400000) (Lf 0x14400000)) (Nd (Lf
  0x14400000) (Lf 0x14400000)))))).
Definition up_231 : trie N :=
  (Nd (Nd (Nd (Nd (Nd (Lf 0x38C10A0A) (Lf 0x38C10A0B)) (Nd (Lf 0x38C10A0C) (Lf 0x38C10A0D))) (Nd (Nd (Lf
  0x38C10A0E) (Lf 0x38C10A0F)) (Nd (Lf 0x38C10A10) (Lf 0x38C10A11)))) (Nd (Nd (Nd (Lf 0x38C10A12) (Lf
  0x38C10A13)) (Nd (Lf 0x38C10A14) (Lf 0x38C10A15))) (Nd (Nd (Lf 0x38C10A16) (Lf 0x38C10A17)) (Nd (Lf
  0x38C10A18) (Lf 0x38C10A19))))) (Nd (Nd (Nd (Nd (Lf 0x38C10A1A) (Lf 0x38C10A1B)) (Nd (Lf 0x38C10A1C) (Lf
  0x38C10A1D))) (Nd (Nd (Lf 0x38C10A1E) (Lf 0x38C10A1F)) (Nd (Lf 0x38C10A20) (Lf 0x38C10A21)))) (Nd (Nd (Nd
  (Lf 0x38C10A22) (Lf 0x38C10A23)) (Nd (Lf 0x38C10A24) (Lf 0x38C10A25))) (Nd (Nd (Lf 0x38C10A26) (Lf
  0x38C10A27)) (Nd (Lf 0x38C10A28) (Lf 0x38C10A29)))))).
Definition up_232 : trie N :=
  (Nd (Nd (Nd (Nd (Nd (Lf 0x38C10A2A) (Lf 0x38C10A2B)) (Nd (Lf 0x38C10A2C) (Lf 0x38C10A2D))) (Nd (Nd (Lf
  0x38C10A2E) (Lf 0x38C10A2F)) (Nd (Lf 0x38C10A30) (Lf 0x38C10A31)))) (Nd (Nd (Nd (Lf 0x38C10A32) (Lf
  0x38C10A33)) (Nd (Lf 0x38C10A34) (Lf 0x38C10A35))) (Nd (Nd (Lf 0x38C10A36) (Lf 0x38C10A37)) (Nd (Lf
  0x38C10A38) (Lf 0x38C10A39))))) (Nd (Nd (Nd (Nd (Lf 0x38C10A3A) (Lf 0x38C10A3B)) (Nd (Lf 0x38C10A3C) (Lf
  0x38C10A3D))) (Nd (Nd (Lf 0x38C10A3E) (Lf 0x38C10A3F)) (Nd (Lf 0x38C10A40) (Lf 0x38C10A41)))) (Nd (Nd (Nd
  (Lf 0x38C10A42) (Lf 0x38C10A43)) (Nd (Lf 0x38C10A44) (Lf 0x38C10A45))) (Nd (Nd (Lf 0x38C10A46) (Lf
  0x38C10A47)) (Nd (Lf 0x38C10A48) (Lf 0x38C10A49)))))).
Definition up_233 : trie N :=
  (Nd (Nd (Nd (Nd (Nd (Lf 0x38C10A4A) (Lf 0x38C10A4B)) (Nd (Lf 0x38C10A4C) (Lf 0x38C10A4D))) (Nd (Nd (Lf
  0x38C10A4E) (Lf 0x38C10A4F)) (Nd (Lf 0x38C10A50) (Lf 0x38C10A51)))) (Nd (Nd (Nd (Lf 0x38C10A52) (Lf
  0x38C10A53)) (Nd (Lf 0x38C10A54) (Lf 0x38C10A55))) (Nd (Nd (Lf 0x38C10A56) (Lf 0x38C10A57)) (Nd (Lf
  0x38C10A58) (Lf 0x38C10A59))))) (Nd (Nd (Nd (Nd (Lf 0x38C10A5A) (Lf 0x38C10A5B)) (Nd (Lf 0x38C10A5C) (Lf
  0x38C10A5D))) (Nd (Nd (Lf 0x38C10A5E) (Lf 0x38C10A5F)) (Nd (Lf 0x38C10A60) (Lf 0x38C10A61)))) (Nd (Nd (Nd
  (Lf 0x38C10A62) (Lf 0x38C10A63)) (Nd (Lf 0x38C10A64) (Lf 0x38C10A65))) (Nd (Nd (Lf 0x38C10A66) (Lf
  0x38C10A67)) (Nd (Lf 0x38C10A68) (Lf 0x38C10A69)))))).
Definition up_234 : trie N :=
  (Nd (Nd (Nd (Nd (Nd (Lf 0x38C10A6A) (Lf 0x38C10A6B)) (Nd (Lf 0x38C10A6C) (Lf 0x38C10A6D))) (Nd (Nd (Lf
  0x38C10A6E) (Lf 0x38C10A6F)) (Nd (Lf 0x38C10A70) (Lf 0x38C10A71)))) (Nd (Nd (Nd (Lf 0x38C10A72) (Lf
  0x38C10A73)) (Nd (Lf 0x38C10A74) (Lf 0x38C10A75))) (Nd (Nd (Lf 0x38C10A76) (Lf 0x38C10A77)) (Nd (Lf
  0x38C10A78) (Lf 0x38C10A79))))) (Nd (Nd (Nd (Nd (Lf 0x38C10A7A) (Lf 0x38C10A7B)) (Nd (Lf 0x38C10A7C) (Lf
  0x38C10A7D))) (Nd (Nd (Lf 0x38C10A7E) (Lf 0x38C10A7F)) (Nd (Lf 0x38C10A80) (Lf 0x38C10A81)))) (Nd (Nd (Nd
  (Lf 0x38C10A82) (Lf 0x38C10A83)) (Nd (Lf 0x38C10A84) (Lf 0x38C10A85))) (Nd (Nd (Lf 0x38C10A86) (Lf
  0x38C10A87)) (Nd (Lf 0x38C10A88) (Lf 0x38C10A89)))))).
Definition up_235 : trie N :=
  (Nd (Nd (Nd (Nd (Nd (Lf 0x38C10A8A) (Lf 0x38C10A8B)) (Nd (Lf 0x38C10A8C) (Lf 0x38C10A8D))) (Nd (Nd (Lf
  0x38C10A8E) (Lf 0x38C10A8F)) (Nd (Lf 0x38C10A90) (Lf 0x38C10A91)))) (Nd (Nd (Nd (Lf 0x38C10A92) (Lf
  0x38C10A93)) (Nd (Lf 0x38C10A94) (Lf 0x38C10A95))) (Nd (Nd (Lf 0x38C10A96) (Lf 0x38C10A97)) (Nd (Lf
  0x38C10A98) (Lf 0x38C10A99))))) (Nd (Nd (Nd (Nd (Lf 0x38C10A9A) (Lf 0x38C10A9B)) (Nd (Lf 0x38C10A9C) (Lf
  0x38C10A9D))) (Nd (Nd (Lf 0x38C10A9E) (Lf 0x38C10A9F)) (Nd (Lf 0x38C10AA0) (Lf 0x38C10AA1)))) (Nd (Nd (Nd
  (Lf 0x38C10AA2) (Lf 0x38C10AA3)) (Nd (Lf 0x38C10AA4) (Lf 0x38C10AA5))) (Nd (Nd (Lf 0x38C10AA6) (Lf
  0x38C10AA7)) (Nd (Lf 0x38C10AA8) (Lf 0x38C10AA9)))))).
Definition up_236 : trie N :=
  (Nd (Nd (Nd (Nd (Nd (Lf 0x38C10AAA) (Lf 0x38C10AAB)) (Nd (Lf 0x38C10AAC) (Lf 0x38C10AAD))) (Nd (Nd (Lf
  0x38C10AAE) (Lf 0x38C10AAF)) (Nd (Lf 0x38C10AB0) (Lf 0x38C10AB1)))) (Nd (Nd (Nd (Lf 0x38C10AB2) (Lf
  0x38C10AB3)) (Nd (Lf 0x38C10AB4) (Lf 0x38C10AB5))) (Nd (Nd (Lf 0x38C10AB6) (Lf 0x38C10AB7)) (Nd (Lf
  0x38C10AB8) (Lf 0x38C10AB9))))) (Nd (Nd (Nd (Nd (Lf 0x38C10ABA) (Lf 0x38C10ABB)) (Nd (Lf 0x38C10ABC) (Lf
  0x38C10ABD))) (Nd (Nd (Lf 0x38C10ABE) (Lf 0x38C10ABF)) (Nd (Lf 0x38C10AC0) (Lf 0x38C10AC1)))) (Nd (Nd (Nd
  (Lf 0x38C10AC2) (Lf 0x38C10AC3)) (Nd (Lf 0x38C10AC4) (Lf 0x38C10AC5))) (Nd (Nd (Lf 0x38C10AC6) (Lf
  0x38C10AC7)) (Nd (Lf 0x38C10AC8) (Lf 0x38C10AC9)))))).
Definition up_237 : trie N :=
  (Nd (Nd (Nd (Nd (Nd (Lf 0x38C10ACA) (Lf 0x38C10ACB)) (Nd (Lf 0x38C10ACC) (Lf 0x38C10ACD))) (Nd (Nd (Lf
  0x38C10ACE) (Lf 0x38C10ACF)) (Nd (Lf 0x38C10AD0) (Lf 0x38C10AD1)))) (Nd (Nd (Nd (Lf 0x38C10AD2) (Lf
  0x38C10AD3)) (Nd (Lf 0x38C10AD4) (Lf 0x38C10AD5))) (Nd (Nd (Lf 0x38C10AD6) (Lf 0x38C10AD7)) (Nd (Lf
  0x38C10AD8) (Lf 0x38C10AD9))))) (Nd (Nd (Nd (Nd (Lf 0x38C10ADA) (Lf 0x38C10ADB)) (Nd (Lf 0x38C10ADC) (Lf
  0x38C10ADD))) (Nd (Nd (Lf 0x38C10ADE) (Lf 0x38C10ADF)) (Nd (Lf 0x14400000) (Lf 0x14400000)))) (Nd (Nd (Nd
  (Lf 0x14400000) (Lf 0x14400000)) (Nd (Lf 0x14400000) (Lf 0x14400000))) (Nd (Nd (Lf 0x14400000) (Lf
  0x14400000)) (Nd (Lf 0x14400000) (Lf 0x14400000)))))).
Definition up_238 : trie N :=
  (Nd (Nd (Nd (Nd (Nd (Lf 0x14400000) (Lf 0x14400000)) (Nd (Lf 0x14400000) (Lf 0x14400000))) (Nd (Nd (Lf
  0x14400000) (Lf 0x14400000)) (Nd (Lf 0x14400000) (Lf 0x14400000)))) (Nd (Nd (Nd (Lf 0x14400000) (Lf
  0x14400000)) (Nd (Lf 0x14400000) (Lf 0x14400000))) (Nd (Nd (Lf 0x14400000) (Lf 0x14400000)) (Nd (Lf
  0x14400000) (Lf 0x14400000))))) (Nd (Nd (Nd (Nd (Lf 0x7400000) (Lf 0x7400000)) (Nd (Lf 0x7400000) (Lf
  0x7400000))) (Nd (Nd (Lf 0x7400000) (Lf 0x7400000)) (Nd (Lf 0x7400000) (Lf 0x7400000)))) (Nd (Nd (Nd (Lf
  0x7400000) (Lf 0x7400000)) (Nd (Lf 0x7400000) (Lf 0x7400000))) (Nd (Nd (Lf 0x14400000) (Lf 0x14400000)) (Nd
  (Lf 0x14400000) (Lf 0x14400000)))))).
Definition up_239 : trie N :=
  (Nd (Nd (Nd (Nd (Nd (Lf 0x31C10AE0) (Lf 0x1800000)) (Nd (Lf 0x1800000) (Lf 0x2800000))) (Nd (Nd (Lf
  0x7400000) (Lf 0x18C00000)) (Nd (Lf 0x3D800000) (Lf 0x3DC00000)))) (Nd (Nd (Nd (Lf 0x3000000) (Lf
  0x3400000)) (Nd (Lf 0x3000000) (Lf 0x3400000))) (Nd (Nd (Lf 0x34800000) (Lf 0x3C800000)) (Nd (Lf 0x34800000)
  (Lf 0x3C800000))))) (Nd (Nd (Nd (Nd (Lf 0x3000000) (Lf 0x3400000)) (Nd (Lf 0x7400000) (Lf 0x7400000))) (Nd
  (Nd (Lf 0x3000000) (Lf 0x3400000)) (Nd (Lf 0x3000000) (Lf 0x3400000)))) (Nd (Nd (Nd (Lf 0x3000000) (Lf
  0x3400000)) (Nd (Lf 0x3000000) (Lf 0x3400000))) (Nd (Nd (Lf 0x33400000) (Lf 0x34800000)) (Nd (Lf 0x3C800000)
  (Lf 0x3C800000)))))).
Definition up_240 : trie N :=
  (Nd (Nd (Nd (Nd (Nd (Lf 0x7400000) (Lf 0x3DC00000)) (Nd (Lf 0x3DC00000) (Lf 0x3DC00000))) (Nd (Nd (Lf
  0x3DC00000) (Lf 0x3DC00000)) (Nd (Lf 0x3DC00000) (Lf 0x3DC00000)))) (Nd (Nd (Nd (Lf 0x3DC00000) (Lf
  0x3DC00000)) (Nd (Lf 0x19000000) (Lf 0x19000000))) (Nd (Nd (Lf 0x19000000) (Lf 0x19000000)) (Nd (Lf
  0x19000000) (Lf 0x19000000))))) (Nd (Nd (Nd (Nd (Lf 0x33400000) (Lf 0x18C00000)) (Nd (Lf 0x18C00000) (Lf
  0x18C00000))) (Nd (Nd (Lf 0x18C00000) (Lf 0x18C00000)) (Nd (Lf 0x38C10AE1) (Lf 0x7400000)))) (Nd (Nd (Nd (Lf
  0x3E010AE2) (Lf 0x3E010AE3)) (Nd (Lf 0x3E010AE4) (Lf 0x18C00000))) (Nd (Nd (Lf 0x11C00000) (Lf 0x2800000))
  (Nd (Lf 0x7400000) (Lf 0x7400000)))))).
Definition up_241 : trie N :=
  (Nd (Nd (Nd (Nd (Nd (Lf 0x14400000) (Lf 0x3E400000)) (Nd (Lf 0x3E400000) (Lf 0x3E400000))) (Nd (Nd (Lf
  0x3E400000) (Lf 0x3E400000)) (Nd (Lf 0x3E400000) (Lf 0x3E400000)))) (Nd (Nd (Nd (Lf 0x3E400000) (Lf
  0x3E400000)) (Nd (Lf 0x3E400000) (Lf 0x3E400000))) (Nd (Nd (Lf 0x3E820AE5) (Lf 0x3E400000)) (Nd (Lf
  0x3E820AE7) (Lf 0x3E400000))))) (Nd (Nd (Nd (Nd (Lf 0x3E820AE9) (Lf 0x3E400000)) (Nd (Lf 0x3E820AEB) (Lf
  0x3E400000))) (Nd (Nd (Lf 0x3E820AED) (Lf 0x3E400000)) (Nd (Lf 0x3E820AEF) (Lf 0x3E400000)))) (Nd (Nd (Nd
  (Lf 0x3E820AF1) (Lf 0x3E400000)) (Nd (Lf 0x3E820AF3) (Lf 0x3E400000))) (Nd (Nd (Lf 0x3E820AF5) (Lf
  0x3E400000)) (Nd (Lf 0x3E820AF7) (Lf 0x3E400000)))))).
Definition up_242 : trie N :=
  (Nd (Nd (Nd (Nd (Nd (Lf 0x3E820AF9) (Lf 0x3E400000)) (Nd (Lf 0x3E820AFB) (Lf 0x3E400000))) (Nd (Nd (Lf
  0x3E400000) (Lf 0x3E820AFD)) (Nd (Lf 0x3E400000) (Lf 0x3E820AFF)))) (Nd (Nd (Nd (Lf 0x3E400000) (Lf
  0x3E820B01)) (Nd (Lf 0x3E400000) (Lf 0x3E400000))) (Nd (Nd (Lf 0x3E400000) (Lf 0x3E400000)) (Nd (Lf
  0x3E400000) (Lf 0x3E400000))))) (Nd (Nd (Nd (Nd (Lf 0x3E820B03) (Lf 0x3E820B05)) (Nd (Lf 0x3E400000) (Lf
  0x3E820B07))) (Nd (Nd (Lf 0x3E820B09) (Lf 0x3E400000)) (Nd (Lf 0x3E820B0B) (Lf 0x3E820B0D)))) (Nd (Nd (Nd
  (Lf 0x3E400000) (Lf 0x3E820B0F)) (Nd (Lf 0x3E820B11) (Lf 0x3E400000))) (Nd (Nd (Lf 0x3E820B13) (Lf
  0x3E820B15)) (Nd (Lf 0x3E400000) (Lf 0x3E400000)))))).
Definition up_243 : trie N :=
  (Nd (Nd (Nd (Nd (Nd (Lf 0x3E400000) (Lf 0x3E400000)) (Nd (Lf 0x3E400000) (Lf 0x3E400000))) (Nd (Nd (Lf
  0x3E400000) (Lf 0x3E400000)) (Nd (Lf 0x3E400000) (Lf 0x3E400000)))) (Nd (Nd (Nd (Lf 0x3E400000) (Lf
  0x3E400000)) (Nd (Lf 0x3E400000) (Lf 0x3E400000))) (Nd (Nd (Lf 0x3E400000) (Lf 0x3E400000)) (Nd (Lf
  0x3E400000) (Lf 0x3E400000))))) (Nd (Nd (Nd (Nd (Lf 0x3E400000) (Lf 0x3E400000)) (Nd (Lf 0x3E400000) (Lf
  0x3E400000))) (Nd (Nd (Lf 0x3E820B17) (Lf 0x3E400000)) (Nd (Lf 0x3E400000) (Lf 0x14400000)))) (Nd (Nd (Nd
  (Lf 0x14400000) (Lf 0x19000000)) (Nd (Lf 0x19000000) (Lf 0x7820B19))) (Nd (Nd (Lf 0x7820B1B) (Lf
  0x18C00000)) (Nd (Lf 0x3EC20B1D) (Lf 0x3F020B1F)))))).
Definition up_244 : trie N :=
  (Nd (Nd (Nd (Nd (Nd (Lf 0x22C00000) (Lf 0x3F400000)) (Nd (Lf 0x3F400000) (Lf 0x3F400000))) (Nd (Nd (Lf
  0x3F400000) (Lf 0x3F400000)) (Nd (Lf 0x3F400000) (Lf 0x3F400000)))) (Nd (Nd (Nd (Lf 0x3F400000) (Lf
  0x3F400000)) (Nd (Lf 0x3F400000) (Lf 0x3F400000))) (Nd (Nd (Lf 0x3F820B21) (Lf 0x3F400000)) (Nd (Lf
  0x3F820B23) (Lf 0x3F400000))))) (Nd (Nd (Nd (Nd (Lf 0x3F820B25) (Lf 0x3F400000)) (Nd (Lf 0x3F820B27) (Lf
  0x3F400000))) (Nd (Nd (Lf 0x3F820B29) (Lf 0x3F400000)) (Nd (Lf 0x3F820B2B) (Lf 0x3F400000)))) (Nd (Nd (Nd
  (Lf 0x3F820B2D) (Lf 0x3F400000)) (Nd (Lf 0x3F820B2F) (Lf 0x3F400000))) (Nd (Nd (Lf 0x3F820B31) (Lf
  0x3F400000)) (Nd (Lf 0x3F820B33) (Lf 0x3F400000)))))).
Definition up_245 : trie N :=
  (Nd (Nd (Nd (Nd (Nd (Lf 0x3F820B35) (Lf 0x3F400000)) (Nd (Lf 0x3F820B37) (Lf 0x3F400000))) (Nd (Nd (Lf
  0x3F400000) (Lf 0x3F820B39)) (Nd (Lf 0x3F400000) (Lf 0x3F820B3B)))) (Nd (Nd (Nd (Lf 0x3F400000) (Lf
  0x3F820B3D)) (Nd (Lf 0x3F400000) (Lf 0x3F400000))) (Nd (Nd (Lf 0x3F400000) (Lf 0x3F400000)) (Nd (Lf
  0x3F400000) (Lf 0x3F400000))))) (Nd (Nd (Nd (Nd (Lf 0x3F820B3F) (Lf 0x3F820B41)) (Nd (Lf 0x3F400000) (Lf
  0x3F820B43))) (Nd (Nd (Lf 0x3F820B45) (Lf 0x3F400000)) (Nd (Lf 0x3F820B47) (Lf 0x3F820B49)))) (Nd (Nd (Nd
  (Lf 0x3F400000) (Lf 0x3F820B4B)) (Nd (Lf 0x3F820B4D) (Lf 0x3F400000))) (Nd (Nd (Lf 0x3F820B4F) (Lf
  0x3F820B51)) (Nd (Lf 0x3F400000) (Lf 0x3F400000)))))).
Definition up_246 : trie N :=
  (Nd (Nd (Nd (Nd (Nd (Lf 0x3F400000) (Lf 0x3F400000)) (Nd (Lf 0x3F400000) (Lf 0x3F400000))) (Nd (Nd (Lf
  0x3F400000) (Lf 0x3F400000)) (Nd (Lf 0x3F400000) (Lf 0x3F400000)))) (Nd (Nd (Nd (Lf 0x3F400000) (Lf
  0x3F400000)) (Nd (Lf 0x3F400000) (Lf 0x3F400000))) (Nd (Nd (Lf 0x3F400000) (Lf 0x3F400000)) (Nd (Lf
  0x3F400000) (Lf 0x3F400000))))) (Nd (Nd (Nd (Nd (Lf 0x3F400000) (Lf 0x3F400000)) (Nd (Lf 0x3F400000) (Lf
  0x3F400000))) (Nd (Nd (Lf 0x3F820B53) (Lf 0x3F400000)) (Nd (Lf 0x3F400000) (Lf 0x3F820B55)))) (Nd (Nd (Nd
  (Lf 0x3F820B57) (Lf 0x3F820B59)) (Nd (Lf 0x3F820B5B) (Lf 0x6000000))) (Nd (Nd (Lf 0x18C00000) (Lf
  0x18C00000)) (Nd (Lf 0x3EC20B5D) (Lf 0x3FC20B5F)))))).
Definition up_247 : trie N :=
  (Nd (Nd (Nd (Nd (Nd (Lf 0x14400000) (Lf 0x14400000)) (Nd (Lf 0x14400000) (Lf 0x14400000))) (Nd (Nd (Lf
  0x14400000) (Lf 0x11C00000)) (Nd (Lf 0x11C00000) (Lf 0x11C00000)))) (Nd (Nd (Nd (Lf 0x11C00000) (Lf
  0x11C00000)) (Nd (Lf 0x11C00000) (Lf 0x11C00000))) (Nd (Nd (Lf 0x11C00000) (Lf 0x11C00000)) (Nd (Lf
  0x11C00000) (Lf 0x11C00000))))) (Nd (Nd (Nd (Nd (Lf 0x11C00000) (Lf 0x11C00000)) (Nd (Lf 0x11C00000) (Lf
  0x11C00000))) (Nd (Nd (Lf 0x11C00000) (Lf 0x11C00000)) (Nd (Lf 0x11C00000) (Lf 0x11C00000)))) (Nd (Nd (Nd
  (Lf 0x11C00000) (Lf 0x11C00000)) (Nd (Lf 0x11C00000) (Lf 0x11C00000))) (Nd (Nd (Lf 0x11C00000) (Lf
  0x11C00000)) (Nd (Lf 0x11C00000) (Lf 0x11C00000)))))).
Definition up_248 : trie N :=
  (Nd (Nd (Nd (Nd (Nd (Lf 0x11C00000) (Lf 0x11C00000)) (Nd (Lf 0x11C00000) (Lf 0x11C00000))) (Nd (Nd (Lf
  0x11C00000) (Lf 0x11C00000)) (Nd (Lf 0x11C00000) (Lf 0x11C00000)))) (Nd (Nd (Nd (Lf 0x11C00000) (Lf
  0x11C00000)) (Nd (Lf 0x11C00000) (Lf 0x11C00000))) (Nd (Nd (Lf 0x11C00000) (Lf 0x14400000)) (Nd (Lf
  0x14400000) (Lf 0x14400000))))) (Nd (Nd (Nd (Nd (Lf 0x14400000) (Lf 0x29410B61)) (Nd (Lf 0x29410B62) (Lf
  0x29410B63))) (Nd (Nd (Lf 0x29410B64) (Lf 0x29410B65)) (Nd (Lf 0x29410B66) (Lf 0x29410B67)))) (Nd (Nd (Nd
  (Lf 0x29410B68) (Lf 0x29410B69)) (Nd (Lf 0x29410B6A) (Lf 0x29410B6B))) (Nd (Nd (Lf 0x29410B6C) (Lf
  0x29410B6D)) (Nd (Lf 0x29410B6E) (Lf 0x29410B6F)))))).
Definition up_249 : trie N :=
  (Nd (Nd (Nd (Nd (Nd (Lf 0x29410B70) (Lf 0x29410B71)) (Nd (Lf 0x29410B72) (Lf 0x29410B73))) (Nd (Nd (Lf
  0x29410B74) (Lf 0x29410B75)) (Nd (Lf 0x29410B76) (Lf 0x29410B77)))) (Nd (Nd (Nd (Lf 0x29410B78) (Lf
  0x29410B79)) (Nd (Lf 0x29410B7A) (Lf 0x29410B7B))) (Nd (Nd (Lf 0x29410B7C) (Lf 0x29410B7D)) (Nd (Lf
  0x29410B7E) (Lf 0x29410B7F))))) (Nd (Nd (Nd (Nd (Lf 0x29410B80) (Lf 0x29410B81)) (Nd (Lf 0x29410B82) (Lf
  0x29410B83))) (Nd (Nd (Lf 0x29410B84) (Lf 0x29410B85)) (Nd (Lf 0x29410B86) (Lf 0x29410B87)))) (Nd (Nd (Nd
  (Lf 0x29410B88) (Lf 0x29410B89)) (Nd (Lf 0x29410B8A) (Lf 0x29410B8B))) (Nd (Nd (Lf 0x29410B8C) (Lf
  0x29410B8D)) (Nd (Lf 0x29410B8E) (Lf 0x29410B8F)))))).
Definition up_250 : trie N :=
  (Nd (Nd (Nd (Nd (Nd (Lf 0x29410B90) (Lf 0x29410B91)) (Nd (Lf 0x29410B92) (Lf 0x29410B93))) (Nd (Nd (Lf
  0x29410B94) (Lf 0x29410B95)) (Nd (Lf 0x29410B96) (Lf 0x29410B97)))) (Nd (Nd (Nd (Lf 0x29410B98) (Lf
  0x29410B99)) (Nd (Lf 0x29410B9A) (Lf 0x29410B9B))) (Nd (Nd (Lf 0x29410B9C) (Lf 0x29410B9D)) (Nd (Lf
  0x29410B9E) (Lf 0x29410B9F))))) (Nd (Nd (Nd (Nd (Lf 0x29410BA0) (Lf 0x29410BA1)) (Nd (Lf 0x29410BA2) (Lf
  0x29410BA3))) (Nd (Nd (Lf 0x29410BA4) (Lf 0x29410BA5)) (Nd (Lf 0x29410BA6) (Lf 0x29410BA7)))) (Nd (Nd (Nd
  (Lf 0x29410BA8) (Lf 0x29410BA9)) (Nd (Lf 0x29410BAA) (Lf 0x29410BAB))) (Nd (Nd (Lf 0x29410BAC) (Lf
  0x29410BAD)) (Nd (Lf 0x29410BAE) (Lf 0x29410BAF)))))).
Definition up_251 : trie N :=
  (Nd (Nd (Nd (Nd (Nd (Lf 0x29410BB0) (Lf 0x29410BB1)) (Nd (Lf 0x29410BB2) (Lf 0x29410BB3))) (Nd (Nd (Lf
  0x29410BB4) (Lf 0x29410BB5)) (Nd (Lf 0x29410BB6) (Lf 0x29410BB7)))) (Nd (Nd (Nd (Lf 0x29410BB8) (Lf
  0x29410BB9)) (Nd (Lf 0x29410BBA) (Lf 0x29410BBB))) (Nd (Nd (Lf 0x29410BBC) (Lf 0x29410BBD)) (Nd (Lf
  0x29410BBE) (Lf 0x14400000))))) (Nd (Nd (Nd (Nd (Lf 0x21000000) (Lf 0x21000000)) (Nd (Lf 0x40010BBF) (Lf
  0x40010BC0))) (Nd (Nd (Lf 0x40010BC1) (Lf 0x40010BC2)) (Nd (Lf 0x3B810BC3) (Lf 0x3B810BC4)))) (Nd (Nd (Nd
  (Lf 0x3B810BC5) (Lf 0x3B810BC6)) (Nd (Lf 0x3B810BC7) (Lf 0x3B810BC8))) (Nd (Nd (Lf 0x3B810BC9) (Lf
  0x3B810BCA)) (Nd (Lf 0x3B810BCB) (Lf 0x3B810BCC)))))).
Definition up_252 : trie N :=
  (Nd (Nd (Nd (Nd (Nd (Lf 0x14400000) (Lf 0x14400000)) (Nd (Lf 0x14400000) (Lf 0x14400000))) (Nd (Nd (Lf
  0x14400000) (Lf 0x14400000)) (Nd (Lf 0x14400000) (Lf 0x14400000)))) (Nd (Nd (Nd (Lf 0x14400000) (Lf
  0x14400000)) (Nd (Lf 0x14400000) (Lf 0x14400000))) (Nd (Nd (Lf 0x14400000) (Lf 0x14400000)) (Nd (Lf
  0x14400000) (Lf 0x14400000))))) (Nd (Nd (Nd (Nd (Lf 0x3F400000) (Lf 0x3F400000)) (Nd (Lf 0x3F400000) (Lf
  0x3F400000))) (Nd (Nd (Lf 0x3F400000) (Lf 0x3F400000)) (Nd (Lf 0x3F400000) (Lf 0x3F400000)))) (Nd (Nd (Nd
  (Lf 0x3F400000) (Lf 0x3F400000)) (Nd (Lf 0x3F400000) (Lf 0x3F400000))) (Nd (Nd (Lf 0x3F400000) (Lf
  0x3F400000)) (Nd (Lf 0x3F400000) (Lf 0x3F400000)))))).
Definition up_253 : trie N :=
  (Nd (Nd (Nd (Nd (Nd (Lf 0x3B830BCD) (Lf 0x3B830BD0)) (Nd (Lf 0x3B830BD3) (Lf 0x3B830BD6))) (Nd (Nd (Lf
  0x3B830BD9) (Lf 0x3B830BDC)) (Nd (Lf 0x3B830BDF) (Lf 0x3B830BE2)))) (Nd (Nd (Nd (Lf 0x3B830BE5) (Lf
  0x3B830BE8)) (Nd (Lf 0x3B830BEB) (Lf 0x3B830BEE))) (Nd (Nd (Lf 0x3B830BF1) (Lf 0x3B830BF4)) (Nd (Lf
  0x3B840BF7) (Lf 0x3B840BFB))))) (Nd (Nd (Nd (Nd (Lf 0x3B840BFF) (Lf 0x3B840C03)) (Nd (Lf 0x3B840C07) (Lf
  0x3B840C0B))) (Nd (Nd (Lf 0x3B840C0F) (Lf 0x3B840C13)) (Nd (Lf 0x3B840C17) (Lf 0x3B840C1B)))) (Nd (Nd (Nd
  (Lf 0x3B840C1F) (Lf 0x3B840C23)) (Nd (Lf 0x3B840C27) (Lf 0x3B840C2B))) (Nd (Nd (Lf 0x3B840C2F) (Lf
  0x38C70C33)) (Nd (Lf 0x38C60C3A) (Lf 0x14400000)))))).
Definition up_254 : trie N :=
  (Nd (Nd (Nd (Nd (Nd (Lf 0x40030C40) (Lf 0x40030C43)) (Nd (Lf 0x40030C46) (Lf 0x40030C49))) (Nd (Nd (Lf
  0x40030C4C) (Lf 0x40030C4F)) (Nd (Lf 0x40030C52) (Lf 0x40030C55)))) (Nd (Nd (Nd (Lf 0x40030C58) (Lf
  0x40030C5B)) (Nd (Lf 0x3B830C5E) (Lf 0x3B830C61))) (Nd (Nd (Lf 0x3B830C64) (Lf 0x3B830C67)) (Nd (Lf
  0x3B830C6A) (Lf 0x3B830C6D))))) (Nd (Nd (Nd (Nd (Lf 0x3B830C70) (Lf 0x3B830C73)) (Nd (Lf 0x3B830C76) (Lf
  0x3B830C79))) (Nd (Nd (Lf 0x3B830C7C) (Lf 0x3B830C7F)) (Nd (Lf 0x3B830C82) (Lf 0x3B830C85)))) (Nd (Nd (Nd
  (Lf 0x3B830C88) (Lf 0x3B830C8B)) (Nd (Lf 0x3B830C8E) (Lf 0x3B830C91))) (Nd (Nd (Lf 0x3B830C94) (Lf
  0x3B830C97)) (Nd (Lf 0x3B830C9A) (Lf 0x3B830C9D)))))).
Definition up_255 : trie N :=
  (Nd (Nd (Nd (Nd (Nd (Lf 0x3B830CA0) (Lf 0x3B830CA3)) (Nd (Lf 0x3B830CA6) (Lf 0x3B830CA9))) (Nd (Nd (Lf
  0x14400000) (Lf 0x14400000)) (Nd (Lf 0x14400000) (Lf 0x14400000)))) (Nd (Nd (Nd (Lf 0x14400000) (Lf
  0x14400000)) (Nd (Lf 0x14400000) (Lf 0x14400000))) (Nd (Nd (Lf 0x14400000) (Lf 0x14400000)) (Nd (Lf
  0x14400000) (Lf 0x14400000))))) (Nd (Nd (Nd (Nd (Lf 0x38C30CAC) (Lf 0xA020CAF)) (Nd (Lf 0xA020CB1) (Lf
  0xA020CB3))) (Nd (Nd (Lf 0xA020CB5) (Lf 0xA020CB7)) (Nd (Lf 0xA020CB9) (Lf 0xA020CBB)))) (Nd (Nd (Nd (Lf
  0xA020CBD) (Lf 0xA020CBF)) (Nd (Lf 0xA020CC1) (Lf 0xA020CC3))) (Nd (Nd (Lf 0xA020CC5) (Lf 0xA020CC7)) (Nd
  (Lf 0xA020CC9) (Lf 0xA020CCB)))))).
Definition up_256 : trie N :=
  (Nd (Nd (Nd (Nd (Nd (Lf 0x3B810CCD) (Lf 0x3B810CCE)) (Nd (Lf 0x3B810CCF) (Lf 0x3B810CD0))) (Nd (Nd (Lf
  0x3B810CD1) (Lf 0x3B810CD2)) (Nd (Lf 0x3B810CD3) (Lf 0x3B810CD4)))) (Nd (Nd (Nd (Lf 0x3B810CD5) (Lf
  0x3B810CD6)) (Nd (Lf 0x3B810CD7) (Lf 0x3B810CD8))) (Nd (Nd (Lf 0x3B810CD9) (Lf 0x3B810CDA)) (Nd (Lf
  0x3B820CDB) (Lf 0x3B820CDD))))) (Nd (Nd (Nd (Nd (Lf 0x3B820CDF) (Lf 0x3B820CE1)) (Nd (Lf 0x3B820CE3) (Lf
  0x3B820CE5))) (Nd (Nd (Lf 0x3B820CE7) (Lf 0x3B820CE9)) (Nd (Lf 0x3B820CEB) (Lf 0x3B820CED)))) (Nd (Nd (Nd
  (Lf 0x3B820CEF) (Lf 0x3B820CF1)) (Nd (Lf 0x3B820CF3) (Lf 0x3B820CF5))) (Nd (Nd (Lf 0x38C50CF7) (Lf
  0x38C40CFC)) (Nd (Lf 0x14400000) (Lf 0x21000000)))))).
Definition up_257 : trie N :=
  (Nd (Nd (Nd (Nd (Nd (Lf 0x40010D00) (Lf 0x40010D01)) (Nd (Lf 0x40010D02) (Lf 0x40010D03))) (Nd (Nd (Lf
  0x40010D04) (Lf 0x40010D05)) (Nd (Lf 0x40010D06) (Lf 0x40010D07)))) (Nd (Nd (Nd (Lf 0x40010D08) (Lf
  0x40010D09)) (Nd (Lf 0x3B810D0A) (Lf 0x3B810D0B))) (Nd (Nd (Lf 0x3B810D0C) (Lf 0x3B810D0D)) (Nd (Lf
  0x3B810D0E) (Lf 0x3B810D0F))))) (Nd (Nd (Nd (Nd (Lf 0x3B810D10) (Lf 0x3B810D11)) (Nd (Lf 0x3B810D12) (Lf
  0x3B810D13))) (Nd (Nd (Lf 0x3B810D14) (Lf 0x3B810D15)) (Nd (Lf 0x3B810D16) (Lf 0x3B810D17)))) (Nd (Nd (Nd
  (Lf 0x3B810D18) (Lf 0x3B810D19)) (Nd (Lf 0x3B810D1A) (Lf 0x3B810D1B))) (Nd (Nd (Lf 0x3B810D1C) (Lf
  0x3B810D1D)) (Nd (Lf 0x3B810D1E) (Lf 0x3B810D1F)))))).
Definition up_258 : trie N :=
  (Nd (Nd (Nd (Nd (Nd (Lf 0x3B810D20) (Lf 0x3B810D21)) (Nd (Lf 0x3B810D22) (Lf 0x3B810D23))) (Nd (Nd (Lf
  0x3B810D24) (Lf 0x3B810D25)) (Nd (Lf 0x3B810D26) (Lf 0x3B810D27)))) (Nd (Nd (Nd (Lf 0x3B810D28) (Lf
  0x3B810D29)) (Nd (Lf 0x3B810D2A) (Lf 0x3B810D2B))) (Nd (Nd (Lf 0x3B810D2C) (Lf 0x3B810D2D)) (Nd (Lf
  0x3B810D2E) (Lf 0x3B810D2F))))) (Nd (Nd (Nd (Nd (Lf 0x3B810D30) (Lf 0xA020D31)) (Nd (Lf 0xA020D33) (Lf
  0xA020D35))) (Nd (Nd (Lf 0xA020D37) (Lf 0xA020D39)) (Nd (Lf 0xA020D3B) (Lf 0xA020D3D)))) (Nd (Nd (Nd (Lf
  0xA020D3F) (Lf 0xA020D41)) (Nd (Lf 0xA020D43) (Lf 0xA020D45))) (Nd (Nd (Lf 0xA020D47) (Lf 0xA020D49)) (Nd
  (Lf 0xA020D4B) (Lf 0xA020D4D)))))).
Definition up_259 : trie N :=
  (Nd (Nd (Nd (Nd (Nd (Lf 0x3B820D4F) (Lf 0x3B820D51)) (Nd (Lf 0x3B820D53) (Lf 0x3B820D55))) (Nd (Nd (Lf
  0x3B820D57) (Lf 0x3B820D59)) (Nd (Lf 0x3B820D5B) (Lf 0x3B820D5D)))) (Nd (Nd (Nd (Lf 0x3B820D5F) (Lf
  0x3B830D61)) (Nd (Lf 0x3B830D64) (Lf 0x3B830D67))) (Nd (Nd (Lf 0x38C20D6A) (Lf 0x38C30D6C)) (Nd (Lf
  0x38C20D6F) (Lf 0x38C30D71))))) (Nd (Nd (Nd (Nd (Lf 0x3B810D74) (Lf 0x3B810D75)) (Nd (Lf 0x3B810D76) (Lf
  0x3B810D77))) (Nd (Nd (Lf 0x3B810D78) (Lf 0x3B810D79)) (Nd (Lf 0x3B810D7A) (Lf 0x3B810D7B)))) (Nd (Nd (Nd
  (Lf 0x3B810D7C) (Lf 0x3B810D7D)) (Nd (Lf 0x3B810D7E) (Lf 0x3B810D7F))) (Nd (Nd (Lf 0x3B810D80) (Lf
  0x3B810D81)) (Nd (Lf 0x3B810D82) (Lf 0x3B810D83)))))).
Definition up_260 : trie N :=
  (Nd (Nd (Nd (Nd (Nd (Lf 0x3B810D84) (Lf 0x3B810D85)) (Nd (Lf 0x3B810D86) (Lf 0x3B810D87))) (Nd (Nd (Lf
  0x3B810D88) (Lf 0x3B810D89)) (Nd (Lf 0x3B810D8A) (Lf 0x3B810D8B)))) (Nd (Nd (Nd (Lf 0x3B810D8C) (Lf
  0x3B810D8D)) (Nd (Lf 0x3B810D8E) (Lf 0x3B810D8F))) (Nd (Nd (Lf 0x3B810D90) (Lf 0x3B810D91)) (Nd (Lf
  0x3B810D92) (Lf 0x3B810D93))))) (Nd (Nd (Nd (Nd (Lf 0x3B810D94) (Lf 0x3B810D95)) (Nd (Lf 0x3B810D96) (Lf
  0x3B810D97))) (Nd (Nd (Lf 0x3B810D98) (Lf 0x3B810D99)) (Nd (Lf 0x3B810D9A) (Lf 0x3B810D9B)))) (Nd (Nd (Nd
  (Lf 0x3B810D9C) (Lf 0x3B810D9D)) (Nd (Lf 0x3B810D9E) (Lf 0x3B810D9F))) (Nd (Nd (Lf 0x3B810DA0) (Lf
  0x3B810DA1)) (Nd (Lf 0x3B810DA2) (Lf 0x14400000)))))).
Definition up_261 : trie N :=
  (Nd (Nd (Nd (Nd (Nd (Lf 0x3B840DA3) (Lf 0x3B840DA7)) (Nd (Lf 0x3B840DAB) (Lf 0x3B830DAF))) (Nd (Nd (Lf
  0x3B840DB2) (Lf 0x3B830DB6)) (Nd (Lf 0x3B830DB9) (Lf 0x3B850DBC)))) (Nd (Nd (Nd (Lf 0x3B840DC1) (Lf
  0x3B830DC5)) (Nd (Lf 0x3B830DC8) (Lf 0x3B830DCB))) (Nd (Nd (Lf 0x3B840DCE) (Lf 0x3B840DD2)) (Nd (Lf
  0x3B830DD6) (Lf 0x3B830DD9))))) (Nd (Nd (Nd (Nd (Lf 0x3B820DDC) (Lf 0x3B830DDE)) (Nd (Lf 0x3B840DE1) (Lf
  0x3B840DE5))) (Nd (Nd (Lf 0x3B820DE9) (Lf 0x3B850DEB)) (Nd (Lf 0x3B860DF0) (Lf 0x3B850DF6)))) (Nd (Nd (Nd
  (Lf 0x3B830DFB) (Lf 0x3B850DFE)) (Nd (Lf 0x3B850E03) (Lf 0x3B840E08))) (Nd (Nd (Lf 0x3B830E0C) (Lf
  0x3B830E0F)) (Nd (Lf 0x3B830E12) (Lf 0x3B840E15)))))).
Definition up_262 : trie N :=
  (Nd (Nd (Nd (Nd (Nd (Lf 0x3B850E19) (Lf 0x3B840E1E)) (Nd (Lf 0x3B830E22) (Lf 0x3B830E25))) (Nd (Nd (Lf
  0x3B830E28) (Lf 0x3B820E2B)) (Nd (Lf 0x3B820E2D) (Lf 0x3B820E2F)))) (Nd (Nd (Nd (Lf 0x3B820E31) (Lf
  0x3B830E33)) (Nd (Lf 0x3B830E36) (Lf 0x3B850E39))) (Nd (Nd (Lf 0x3B830E3E) (Lf 0x3B840E41)) (Nd (Lf
  0x3B850E45) (Lf 0x3B830E4A))))) (Nd (Nd (Nd (Nd (Lf 0x3B820E4D) (Lf 0x3B820E4F)) (Nd (Lf 0x3B850E51) (Lf
  0x3B840E56))) (Nd (Nd (Lf 0x3B850E5A) (Lf 0x3B830E5F)) (Nd (Lf 0x3B850E62) (Lf 0x3B820E67)))) (Nd (Nd (Nd
  (Lf 0x3B830E69) (Lf 0x3B830E6C)) (Nd (Lf 0x3B830E6F) (Lf 0x3B830E72))) (Nd (Nd (Lf 0x3B830E75) (Lf
  0x3B840E78)) (Nd (Lf 0x3B830E7C) (Lf 0x3B820E7F)))))).
Definition up_263 : trie N :=
  (Nd (Nd (Nd (Nd (Nd (Lf 0x3B830E81) (Lf 0x3B830E84)) (Nd (Lf 0x3B830E87) (Lf 0x3B840E8A))) (Nd (Nd (Lf
  0x3B830E8E) (Lf 0x3B830E91)) (Nd (Lf 0x3B830E94) (Lf 0x3B850E97)))) (Nd (Nd (Nd (Lf 0x3B840E9C) (Lf
  0x3B820EA0)) (Nd (Lf 0x3B850EA2) (Lf 0x3B820EA7))) (Nd (Nd (Lf 0x3B840EA9) (Lf 0x3B840EAD)) (Nd (Lf
  0x3B830EB1) (Lf 0x3B830EB4))))) (Nd (Nd (Nd (Nd (Lf 0x3B830EB7) (Lf 0x3B840EBA)) (Nd (Lf 0x3B820EBE) (Lf
  0x3B830EC0))) (Nd (Nd (Lf 0x3B840EC3) (Lf 0x3B820EC7)) (Nd (Lf 0x3B850EC9) (Lf 0x3B830ECE)))) (Nd (Nd (Nd
  (Lf 0x3B820ED1) (Lf 0x3B820ED3)) (Nd (Lf 0x3B820ED5) (Lf 0x3B820ED7))) (Nd (Nd (Lf 0x3B820ED9) (Lf
  0x3B820EDB)) (Nd (Lf 0x3B820EDD) (Lf 0x3B820EDF)))))).
Definition up_264 : trie N :=
  (Nd (Nd (Nd (Nd (Nd (Lf 0x3B820EE1) (Lf 0x3B820EE3)) (Nd (Lf 0x3B830EE5) (Lf 0x3B830EE8))) (Nd (Nd (Lf
  0x3B830EEB) (Lf 0x3B830EEE)) (Nd (Lf 0x3B830EF1) (Lf 0x3B830EF4)))) (Nd (Nd (Nd (Lf 0x3B830EF7) (Lf
  0x3B830EFA)) (Nd (Lf 0x3B830EFD) (Lf 0x3B830F00))) (Nd (Nd (Lf 0x3B830F03) (Lf 0x3B830F06)) (Nd (Lf
  0x3B830F09) (Lf 0x3B830F0C))))) (Nd (Nd (Nd (Nd (Lf 0x3B830F0F) (Lf 0x3B830F12)) (Nd (Lf 0x3B820F15) (Lf
  0x3B820F17))) (Nd (Nd (Lf 0x3B830F19) (Lf 0x3B820F1C)) (Nd (Lf 0x3B820F1E) (Lf 0x38C20F20)))) (Nd (Nd (Nd
  (Lf 0x38C30F22) (Lf 0x38C30F25)) (Nd (Lf 0x38C20F28) (Lf 0x3B820F2A))) (Nd (Nd (Lf 0x3B820F2C) (Lf
  0x3B820F2E)) (Nd (Lf 0x3B820F30) (Lf 0x3B840F32)))))).
Definition up_265 : trie N :=
  (Nd (Nd (Nd (Nd (Nd (Lf 0x3B820F36) (Lf 0x3B820F38)) (Nd (Lf 0x3B820F3A) (Lf 0x3B820F3C))) (Nd (Nd (Lf
  0x3B820F3E) (Lf 0x3B820F40)) (Nd (Lf 0x3B820F42) (Lf 0x3B820F44)))) (Nd (Nd (Nd (Lf 0x3B830F46) (Lf
  0x3B840F49)) (Nd (Lf 0x3B820F4D) (Lf 0x3B820F4F))) (Nd (Nd (Lf 0x3B820F51) (Lf 0x3B820F53)) (Nd (Lf
  0x3B820F55) (Lf 0x3B820F57))))) (Nd (Nd (Nd (Nd (Lf 0x3B820F59) (Lf 0x3B830F5B)) (Nd (Lf 0x3B830F5E) (Lf
  0x3B830F61))) (Nd (Nd (Lf 0x3B830F64) (Lf 0x3B820F67)) (Nd (Lf 0x3B820F69) (Lf 0x3B820F6B)))) (Nd (Nd (Nd
  (Lf 0x3B820F6D) (Lf 0x3B820F6F)) (Nd (Lf 0x3B820F71) (Lf 0x3B820F73))) (Nd (Nd (Lf 0x3B820F75) (Lf
  0x3B820F77)) (Nd (Lf 0x3B820F79) (Lf 0x3B830F7B)))))).
Definition up_266 : trie N :=
  (Nd (Nd (Nd (Nd (Nd (Lf 0x3B830F7E) (Lf 0x3B820F81)) (Nd (Lf 0x3B830F83) (Lf 0x3B830F86))) (Nd (Nd (Lf
  0x3B830F89) (Lf 0x3B820F8C)) (Nd (Lf 0x3B830F8E) (Lf 0x3B830F91)))) (Nd (Nd (Nd (Lf 0x3B840F94) (Lf
  0x3B820F98)) (Nd (Lf 0x3B830F9A) (Lf 0x3B830F9D))) (Nd (Nd (Lf 0x3B830FA0) (Lf 0x3B830FA3)) (Nd (Lf
  0x3B850FA6) (Lf 0x3B860FAB))))) (Nd (Nd (Nd (Nd (Lf 0x3B820FB1) (Lf 0x3B820FB3)) (Nd (Lf 0x3B820FB5) (Lf
  0x3B820FB7))) (Nd (Nd (Lf 0x3B820FB9) (Lf 0x3B820FBB)) (Nd (Lf 0x3B820FBD) (Lf 0x3B820FBF)))) (Nd (Nd (Nd
  (Lf 0x3B820FC1) (Lf 0x3B820FC3)) (Nd (Lf 0x3B820FC5) (Lf 0x3B820FC7))) (Nd (Nd (Lf 0x3B820FC9) (Lf
  0x3B820FCB)) (Nd (Lf 0x3B820FCD) (Lf 0x3B820FCF)))))).
Definition up_267 : trie N :=
  (Nd (Nd (Nd (Nd (Nd (Lf 0x3B820FD1) (Lf 0x3B820FD3)) (Nd (Lf 0x3B840FD5) (Lf 0x3B820FD9))) (Nd (Nd (Lf
  0x3B820FDB) (Lf 0x3B820FDD)) (Nd (Lf 0x3B840FDF) (Lf 0x3B830FE3)))) (Nd (Nd (Nd (Lf 0x3B820FE6) (Lf
  0x3B820FE8)) (Nd (Lf 0x3B820FEA) (Lf 0x3B820FEC))) (Nd (Nd (Lf 0x3B820FEE) (Lf 0x3B820FF0)) (Nd (Lf
  0x3B820FF2) (Lf 0x3B820FF4))))) (Nd (Nd (Nd (Nd (Lf 0x3B820FF6) (Lf 0x3B820FF8)) (Nd (Lf 0x3B830FFA) (Lf
  0x3B820FFD))) (Nd (Nd (Lf 0x3B820FFF) (Lf 0x3B831001)) (Nd (Lf 0x3B831004) (Lf 0x3B821007)))) (Nd (Nd (Nd
  (Lf 0x3B841009) (Lf 0x3B83100D)) (Nd (Lf 0x3B821010) (Lf 0x3B821012))) (Nd (Nd (Lf 0x3B821014) (Lf
  0x3B821016)) (Nd (Lf 0x38C31018) (Lf 0x38C3101B)))))).
Definition up_268 : trie N :=
  (Nd (Nd (Nd (Nd (Nd (Lf 0x3B82101E) (Lf 0x3B821020)) (Nd (Lf 0x3B821022) (Lf 0x3B821024))) (Nd (Nd (Lf
  0x3B821026) (Lf 0x3B821028)) (Nd (Lf 0x3B82102A) (Lf 0x3B82102C)))) (Nd (Nd (Nd (Lf 0x3B82102E) (Lf
  0x3B831030)) (Nd (Lf 0x3B831033) (Lf 0x3B831036))) (Nd (Nd (Lf 0x3B831039) (Lf 0x3B83103C)) (Nd (Lf
  0x3B83103F) (Lf 0x3B831042))))) (Nd (Nd (Nd (Nd (Lf 0x3B831045) (Lf 0x3B831048)) (Nd (Lf 0x3B83104B) (Lf
  0x3B83104E))) (Nd (Nd (Lf 0x3B831051) (Lf 0x3B831054)) (Nd (Lf 0x3B831057) (Lf 0x3B83105A)))) (Nd (Nd (Nd
  (Lf 0x3B83105D) (Lf 0x3B831060)) (Nd (Lf 0x3B831063) (Lf 0x3B831066))) (Nd (Nd (Lf 0x3B831069) (Lf
  0x3B83106C)) (Nd (Lf 0x3B83106F) (Lf 0x38C31072)))))).
Definition up_269 : trie N :=
  (Nd (Nd (Nd (Nd (Nd (Lf 0x3D800000) (Lf 0x3D800000)) (Nd (Lf 0x3D800000) (Lf 0x3D800000))) (Nd (Nd (Lf
  0x3D800000) (Lf 0x3D800000)) (Nd (Lf 0x3D800000) (Lf 0x3D800000)))) (Nd (Nd (Nd (Lf 0x3D800000) (Lf
  0x3D800000)) (Nd (Lf 0x3D800000) (Lf 0x3D800000))) (Nd (Nd (Lf 0x3D800000) (Lf 0x3D800000)) (Nd (Lf
  0x3D800000) (Lf 0x3D800000))))) (Nd (Nd (Nd (Nd (Lf 0x3D800000) (Lf 0x3D800000)) (Nd (Lf 0x3D800000) (Lf
  0x3D800000))) (Nd (Nd (Lf 0x3D800000) (Lf 0x3D800000)) (Nd (Lf 0x3D800000) (Lf 0x3D800000)))) (Nd (Nd (Nd
  (Lf 0x3D800000) (Lf 0x3D800000)) (Nd (Lf 0x3D800000) (Lf 0x3D800000))) (Nd (Nd (Lf 0x3D800000) (Lf
  0x3D800000)) (Nd (Lf 0x3D800000) (Lf 0x3D800000)))))).
Definition up_270 : trie N :=
  (Nd (Nd (Nd (Nd (Nd (Lf 0x3D800000) (Lf 0x3D800000)) (Nd (Lf 0x3D800000) (Lf 0x3D800000))) (Nd (Nd (Lf
  0x3D800000) (Lf 0x3D800000)) (Nd (Lf 0x3D800000) (Lf 0x3D800000)))) (Nd (Nd (Nd (Lf 0x3D800000) (Lf
  0x3D800000)) (Nd (Lf 0x3D800000) (Lf 0x3D800000))) (Nd (Nd (Lf 0x3D800000) (Lf 0x3D800000)) (Nd (Lf
  0x3D800000) (Lf 0x3D800000))))) (Nd (Nd (Nd (Nd (Lf 0x3D800000) (Lf 0x3D800000)) (Nd (Lf 0x3D800000) (Lf
  0x3D800000))) (Nd (Nd (Lf 0x3D800000) (Lf 0x3D800000)) (Nd (Lf 0x14400000) (Lf 0x14400000)))) (Nd (Nd (Nd
  (Lf 0x14400000) (Lf 0x14400000)) (Nd (Lf 0x14400000) (Lf 0x14400000))) (Nd (Nd (Lf 0x14400000) (Lf
  0x14400000)) (Nd (Lf 0x14400000) (Lf 0x14400000)))))).
Definition up_271 : trie N :=
  (Nd (Nd (Nd (Nd (Nd (Lf 0x3D800000) (Lf 0x3D800000)) (Nd (Lf 0x3D800000) (Lf 0x3D800000))) (Nd (Nd (Lf
  0x3D800000) (Lf 0x3D800000)) (Nd (Lf 0x14400000) (Lf 0x14400000)))) (Nd (Nd (Nd (Lf 0x14400000) (Lf
  0x14400000)) (Nd (Lf 0x14400000) (Lf 0x14400000))) (Nd (Nd (Lf 0x14400000) (Lf 0x14400000)) (Nd (Lf
  0x14400000) (Lf 0x14400000))))) (Nd (Nd (Nd (Nd (Lf 0x14400000) (Lf 0x14400000)) (Nd (Lf 0x14400000) (Lf
  0x14400000))) (Nd (Nd (Lf 0x14400000) (Lf 0x14400000)) (Nd (Lf 0x14400000) (Lf 0x14400000)))) (Nd (Nd (Nd
  (Lf 0x14400000) (Lf 0x14400000)) (Nd (Lf 0x14400000) (Lf 0x14400000))) (Nd (Nd (Lf 0x14400000) (Lf
  0x14400000)) (Nd (Lf 0x14400000) (Lf 0x14400000)))))).
Definition up_272 : trie N :=
  (Nd (Nd (Nd (Nd (Nd (Lf 0x11C00000) (Lf 0x11C00000)) (Nd (Lf 0x11C00000) (Lf 0x11C00000))) (Nd (Nd (Lf
  0x11C00000) (Lf 0x11C00000)) (Nd (Lf 0x11C00000) (Lf 0x11C00000)))) (Nd (Nd (Nd (Lf 0x11C00000) (Lf
  0x11C00000)) (Nd (Lf 0x11C00000) (Lf 0x11C00000))) (Nd (Nd (Lf 0x11C00000) (Lf 0x14400000)) (Nd (Lf
  0x14400000) (Lf 0x14400000))))) (Nd (Nd (Nd (Nd (Lf 0x7400000) (Lf 0x7400000)) (Nd (Lf 0x7400000) (Lf
  0x7400000))) (Nd (Nd (Lf 0x7400000) (Lf 0x7400000)) (Nd (Lf 0x7400000) (Lf 0x7400000)))) (Nd (Nd (Nd (Lf
  0x7400000) (Lf 0x7400000)) (Nd (Lf 0x7400000) (Lf 0x7400000))) (Nd (Nd (Lf 0x7400000) (Lf 0x7400000)) (Nd
  (Lf 0x7400000) (Lf 0x7400000)))))).
Definition up_273 : trie N :=
  (Nd (Nd (Nd (Nd (Nd (Lf 0x11C00000) (Lf 0x11C00000)) (Nd (Lf 0x11C00000) (Lf 0x11C00000))) (Nd (Nd (Lf
  0x14400000) (Lf 0x14400000)) (Nd (Lf 0x14400000) (Lf 0x14400000)))) (Nd (Nd (Nd (Lf 0x14400000) (Lf
  0x14400000)) (Nd (Lf 0x14400000) (Lf 0x14400000))) (Nd (Nd (Lf 0x14400000) (Lf 0x14400000)) (Nd (Lf
  0x14400000) (Lf 0x14400000))))) (Nd (Nd (Nd (Nd (Lf 0x14400000) (Lf 0x14400000)) (Nd (Lf 0x14400000) (Lf
  0x14400000))) (Nd (Nd (Lf 0x14400000) (Lf 0x14400000)) (Nd (Lf 0x14400000) (Lf 0x14400000)))) (Nd (Nd (Nd
  (Lf 0x14400000) (Lf 0x14400000)) (Nd (Lf 0x14400000) (Lf 0x14400000))) (Nd (Nd (Lf 0x14400000) (Lf
  0x14400000)) (Nd (Lf 0x14400000) (Lf 0x14400000)))))).
Definition up_274 : trie N :=
  (Nd (Nd (Nd (Nd (Nd (Lf 0x40400000) (Lf 0x40400000)) (Nd (Lf 0x40400000) (Lf 0x40400000))) (Nd (Nd (Lf
  0x40400000) (Lf 0x40400000)) (Nd (Lf 0x40400000) (Lf 0x40400000)))) (Nd (Nd (Nd (Lf 0x40400000) (Lf
  0x40400000)) (Nd (Lf 0x40400000) (Lf 0x40400000))) (Nd (Nd (Lf 0x40400000) (Lf 0x40400000)) (Nd (Lf
  0x40400000) (Lf 0x40400000))))) (Nd (Nd (Nd (Nd (Lf 0x40400000) (Lf 0x40400000)) (Nd (Lf 0x40400000) (Lf
  0x40400000))) (Nd (Nd (Lf 0x40400000) (Lf 0x40400000)) (Nd (Lf 0x40400000) (Lf 0x40400000)))) (Nd (Nd (Nd
  (Lf 0x40400000) (Lf 0x40400000)) (Nd (Lf 0x40400000) (Lf 0x40400000))) (Nd (Nd (Lf 0x40400000) (Lf
  0x40400000)) (Nd (Lf 0x40400000) (Lf 0x40400000)))))).
Definition up_275 : trie N :=
  (Nd (Nd (Nd (Nd (Nd (Lf 0x40800000) (Lf 0x40800000)) (Nd (Lf 0x40800000) (Lf 0x40800000))) (Nd (Nd (Lf
  0x40800000) (Lf 0x40800000)) (Nd (Lf 0x40800000) (Lf 0x40800000)))) (Nd (Nd (Nd (Lf 0x40800000) (Lf
  0x40800000)) (Nd (Lf 0x40800000) (Lf 0x40800000))) (Nd (Nd (Lf 0x40800000) (Lf 0x40800000)) (Nd (Lf
  0x40800000) (Lf 0x40800000))))) (Nd (Nd (Nd (Nd (Lf 0x40800000) (Lf 0x40800000)) (Nd (Lf 0x40800000) (Lf
  0x40800000))) (Nd (Nd (Lf 0x40800000) (Lf 0x40800000)) (Nd (Lf 0x40800000) (Lf 0x40800000)))) (Nd (Nd (Nd
  (Lf 0x40800000) (Lf 0x40800000)) (Nd (Lf 0x40800000) (Lf 0x40800000))) (Nd (Nd (Lf 0x40800000) (Lf
  0x40800000)) (Nd (Lf 0x40800000) (Lf 0x40800000)))))).
Definition up_276 : trie N :=
  (Nd (Nd (Nd (Nd (Nd (Lf 0x40C00000) (Lf 0x40C00000)) (Nd (Lf 0x40C00000) (Lf 0x40C00000))) (Nd (Nd (Lf
  0x40C00000) (Lf 0x40C00000)) (Nd (Lf 0x40C00000) (Lf 0x40C00000)))) (Nd (Nd (Nd (Lf 0x40C00000) (Lf
  0x40C00000)) (Nd (Lf 0x40C00000) (Lf 0x40C00000))) (Nd (Nd (Lf 0x40C00000) (Lf 0x40C00000)) (Nd (Lf
  0x40C00000) (Lf 0x40C00000))))) (Nd (Nd (Nd (Nd (Lf 0x40C00000) (Lf 0x40C00000)) (Nd (Lf 0x40C00000) (Lf
  0x40C00000))) (Nd (Nd (Lf 0x40C00000) (Lf 0x40C00000)) (Nd (Lf 0x40C00000) (Lf 0x40C00000)))) (Nd (Nd (Nd
  (Lf 0x40C00000) (Lf 0x40C00000)) (Nd (Lf 0x40C00000) (Lf 0x40C00000))) (Nd (Nd (Lf 0x40C00000) (Lf
  0x40C00000)) (Nd (Lf 0x40C00000) (Lf 0x40C00000)))))).
Definition up_277 : trie N :=
  (Nd (Nd (Nd (Nd (Nd (Lf 0x41000000) (Lf 0x41000000)) (Nd (Lf 0x41000000) (Lf 0x41000000))) (Nd (Nd (Lf
  0x41000000) (Lf 0x41000000)) (Nd (Lf 0x41000000) (Lf 0x41000000)))) (Nd (Nd (Nd (Lf 0x41000000) (Lf
  0x41000000)) (Nd (Lf 0x41000000) (Lf 0x41000000))) (Nd (Nd (Lf 0x41000000) (Lf 0x41000000)) (Nd (Lf
  0x41000000) (Lf 0x41000000))))) (Nd (Nd (Nd (Nd (Lf 0x41000000) (Lf 0x41000000)) (Nd (Lf 0x41000000) (Lf
  0x41000000))) (Nd (Nd (Lf 0x41000000) (Lf 0x41000000)) (Nd (Lf 0x41000000) (Lf 0x41000000)))) (Nd (Nd (Nd
  (Lf 0x41000000) (Lf 0x41000000)) (Nd (Lf 0x41000000) (Lf 0x41000000))) (Nd (Nd (Lf 0x41000000) (Lf
  0x41000000)) (Nd (Lf 0x41000000) (Lf 0x41000000)))))).
Definition up_278 : trie N :=
  (Nd (Nd (Nd (Nd (Nd (Lf 0x41411075) (Lf 0x41411076)) (Nd (Lf 0x41411077) (Lf 0x41411078))) (Nd (Nd (Lf
  0x41411079) (Lf 0x4141107A)) (Nd (Lf 0x4141107B) (Lf 0x4141107C)))) (Nd (Nd (Nd (Lf 0x4141107D) (Lf
  0x4141107E)) (Nd (Lf 0x4141107F) (Lf 0x41411080))) (Nd (Nd (Lf 0x41411081) (Lf 0x41411082)) (Nd (Lf
  0x41411083) (Lf 0x41411084))))) (Nd (Nd (Nd (Nd (Lf 0x41411085) (Lf 0x41411086)) (Nd (Lf 0x41411087) (Lf
  0x41411088))) (Nd (Nd (Lf 0x41411089) (Lf 0x4141108A)) (Nd (Lf 0x4141108B) (Lf 0x4141108C)))) (Nd (Nd (Nd
  (Lf 0x4141108D) (Lf 0x4141108E)) (Nd (Lf 0x4141108F) (Lf 0x41411090))) (Nd (Nd (Lf 0x41411091) (Lf
  0x41411092)) (Nd (Lf 0x41411093) (Lf 0x41411094)))))).
Definition up_279 : trie N :=
  (Nd (Nd (Nd (Nd (Nd (Lf 0x41411095) (Lf 0x41411096)) (Nd (Lf 0x41411097) (Lf 0x41411098))) (Nd (Nd (Lf
  0x41411099) (Lf 0x4141109A)) (Nd (Lf 0x4141109B) (Lf 0x4141109C)))) (Nd (Nd (Nd (Lf 0x4141109D) (Lf
  0x4141109E)) (Nd (Lf 0x4141109F) (Lf 0x414110A0))) (Nd (Nd (Lf 0x414110A1) (Lf 0x414110A2)) (Nd (Lf
  0x414110A3) (Lf 0x414110A4))))) (Nd (Nd (Nd (Nd (Lf 0x414110A5) (Lf 0x414110A6)) (Nd (Lf 0x414110A7) (Lf
  0x414110A8))) (Nd (Nd (Lf 0x414110A9) (Lf 0x414110AA)) (Nd (Lf 0x414110AB) (Lf 0x414110AC)))) (Nd (Nd (Nd
  (Lf 0x414110AD) (Lf 0x414110AE)) (Nd (Lf 0x414110AF) (Lf 0x414110B0))) (Nd (Nd (Lf 0x414110B1) (Lf
  0x414110B2)) (Nd (Lf 0x414110B3) (Lf 0x414110B4)))))).
Definition up_280 : trie N :=
  (Nd (Nd (Nd (Nd (Nd (Lf 0x414110B5) (Lf 0x414110B6)) (Nd (Lf 0x414110B7) (Lf 0x414110B8))) (Nd (Nd (Lf
  0x414110B9) (Lf 0x414110BA)) (Nd (Lf 0x414110BB) (Lf 0x414110BC)))) (Nd (Nd (Nd (Lf 0x414110BD) (Lf
  0x414110BE)) (Nd (Lf 0x414110BF) (Lf 0x414110C0))) (Nd (Nd (Lf 0x414110C1) (Lf 0x414110C2)) (Nd (Lf
  0x414110C3) (Lf 0x414110C4))))) (Nd (Nd (Nd (Nd (Lf 0x414110C5) (Lf 0x414110C6)) (Nd (Lf 0x414110C7) (Lf
  0x414110C8))) (Nd (Nd (Lf 0x414110C9) (Lf 0x414110CA)) (Nd (Lf 0x414110CB) (Lf 0x414110CC)))) (Nd (Nd (Nd
  (Lf 0x414110CD) (Lf 0x414110CE)) (Nd (Lf 0x414110CF) (Lf 0x414110D0))) (Nd (Nd (Lf 0x414110D1) (Lf
  0x414110D2)) (Nd (Lf 0x414110D3) (Lf 0x414110D4)))))).
Definition up_281 : trie N :=
  (Nd (Nd (Nd (Nd (Nd (Lf 0x414110D5) (Lf 0x414110D6)) (Nd (Lf 0x414110D7) (Lf 0x414110D8))) (Nd (Nd (Lf
  0x414110D9) (Lf 0x414110DA)) (Nd (Lf 0x414110DB) (Lf 0x414110DC)))) (Nd (Nd (Nd (Lf 0x414110DD) (Lf
  0x414110DE)) (Nd (Lf 0x414110DF) (Lf 0x414110E0))) (Nd (Nd (Lf 0x414110E1) (Lf 0x414110E2)) (Nd (Lf
  0x414110E3) (Lf 0x414110E4))))) (Nd (Nd (Nd (Nd (Lf 0x414110E5) (Lf 0x414110E6)) (Nd (Lf 0x414110E7) (Lf
  0x414110E8))) (Nd (Nd (Lf 0x414110E9) (Lf 0x414110EA)) (Nd (Lf 0x414110EB) (Lf 0x414110EC)))) (Nd (Nd (Nd
  (Lf 0x414110ED) (Lf 0x414110EE)) (Nd (Lf 0x414110EF) (Lf 0x414110F0))) (Nd (Nd (Lf 0x414110F1) (Lf
  0x414110F2)) (Nd (Lf 0x414110F3) (Lf 0x414110F4)))))).
Definition up_282 : trie N :=
  (Nd (Nd (Nd (Nd (Nd (Lf 0x414110F5) (Lf 0x414110F6)) (Nd (Lf 0x414110F7) (Lf 0x414110F8))) (Nd (Nd (Lf
  0x414110F9) (Lf 0x414110FA)) (Nd (Lf 0x414110FB) (Lf 0x414110FC)))) (Nd (Nd (Nd (Lf 0x414110FD) (Lf
  0x414110FE)) (Nd (Lf 0x414110FF) (Lf 0x41411100))) (Nd (Nd (Lf 0x41411101) (Lf 0x41411102)) (Nd (Lf
  0x41411103) (Lf 0x41411104))))) (Nd (Nd (Nd (Nd (Lf 0x41411105) (Lf 0x41411106)) (Nd (Lf 0x41411107) (Lf
  0x41411108))) (Nd (Nd (Lf 0x41411109) (Lf 0x4141110A)) (Nd (Lf 0x4141110B) (Lf 0x4141110C)))) (Nd (Nd (Nd
  (Lf 0x4141110D) (Lf 0x4141110E)) (Nd (Lf 0x4141110F) (Lf 0x41411110))) (Nd (Nd (Lf 0x41411111) (Lf
  0x41411112)) (Nd (Lf 0x41411113) (Lf 0x41411114)))))).
Definition up_283 : trie N :=
  (Nd (Nd (Nd (Nd (Nd (Lf 0x41411115) (Lf 0x41411116)) (Nd (Lf 0x41411117) (Lf 0x41411118))) (Nd (Nd (Lf
  0x41411119) (Lf 0x4141111A)) (Nd (Lf 0x4141111B) (Lf 0x4141111C)))) (Nd (Nd (Nd (Lf 0x4141111D) (Lf
  0x4141111E)) (Nd (Lf 0x4141111F) (Lf 0x41411120))) (Nd (Nd (Lf 0x41411121) (Lf 0x41411122)) (Nd (Lf
  0x41411123) (Lf 0x41411124))))) (Nd (Nd (Nd (Nd (Lf 0x41411125) (Lf 0x41411126)) (Nd (Lf 0x41411127) (Lf
  0x41411128))) (Nd (Nd (Lf 0x41411129) (Lf 0x4141112A)) (Nd (Lf 0x4141112B) (Lf 0x4141112C)))) (Nd (Nd (Nd
  (Lf 0x4141112D) (Lf 0x4141112E)) (Nd (Lf 0x4141112F) (Lf 0x41411130))) (Nd (Nd (Lf 0x41411131) (Lf
  0x41411132)) (Nd (Lf 0x41411133) (Lf 0x41411134)))))).
Definition up_284 : trie N :=
  (Nd (Nd (Nd (Nd (Nd (Lf 0x41411135) (Lf 0x41411136)) (Nd (Lf 0x41411137) (Lf 0x41411138))) (Nd (Nd (Lf
  0x41411139) (Lf 0x4141113A)) (Nd (Lf 0x4141113B) (Lf 0x4141113C)))) (Nd (Nd (Nd (Lf 0x4141113D) (Lf
  0x4141113E)) (Nd (Lf 0x4141113F) (Lf 0x41411140))) (Nd (Nd (Lf 0x41411141) (Lf 0x41411142)) (Nd (Lf
  0x41411143) (Lf 0x41411144))))) (Nd (Nd (Nd (Nd (Lf 0x41411145) (Lf 0x41411146)) (Nd (Lf 0x41411147) (Lf
  0x41411148))) (Nd (Nd (Lf 0x41411149) (Lf 0x4141114A)) (Nd (Lf 0x4141114B) (Lf 0x4141114C)))) (Nd (Nd (Nd
  (Lf 0x4141114D) (Lf 0x4141114E)) (Nd (Lf 0x4141114F) (Lf 0x41411150))) (Nd (Nd (Lf 0x41411151) (Lf
  0x41411152)) (Nd (Lf 0x41411153) (Lf 0x41411154)))))).
Definition up_285 : trie N :=
  (Nd (Nd (Nd (Nd (Nd (Lf 0x41411155) (Lf 0x41411156)) (Nd (Lf 0x41411157) (Lf 0x41411158))) (Nd (Nd (Lf
  0x41411159) (Lf 0x4141115A)) (Nd (Lf 0x4141115B) (Lf 0x4141115C)))) (Nd (Nd (Nd (Lf 0x4141115D) (Lf
  0x4141115E)) (Nd (Lf 0x4141115F) (Lf 0x41411160))) (Nd (Nd (Lf 0x41411161) (Lf 0x41411162)) (Nd (Lf
  0x41411163) (Lf 0x41411164))))) (Nd (Nd (Nd (Nd (Lf 0x41411165) (Lf 0x41411166)) (Nd (Lf 0x41411167) (Lf
  0x41411168))) (Nd (Nd (Lf 0x41411169) (Lf 0x4141116A)) (Nd (Lf 0x4141116B) (Lf 0x4141116C)))) (Nd (Nd (Nd
  (Lf 0x4141116D) (Lf 0x4141116E)) (Nd (Lf 0x4141116F) (Lf 0x41411170))) (Nd (Nd (Lf 0x41411171) (Lf
  0x41411172)) (Nd (Lf 0x41411173) (Lf 0x41411174)))))).
Definition up_286 : trie N :=
  (Nd (Nd (Nd (Nd (Nd (Lf 0x41411175) (Lf 0x41411176)) (Nd (Lf 0x41411177) (Lf 0x41411178))) (Nd (Nd (Lf
  0x41411179) (Lf 0x4141117A)) (Nd (Lf 0x4141117B) (Lf 0x4141117C)))) (Nd (Nd (Nd (Lf 0x4141117D) (Lf
  0x4141117E)) (Nd (Lf 0x4141117F) (Lf 0x41411180))) (Nd (Nd (Lf 0x41411181) (Lf 0x41411182)) (Nd (Lf
  0x3D800000) (Lf 0x3D800000))))) (Nd (Nd (Nd (Nd (Lf 0x41411183) (Lf 0x3D800000)) (Nd (Lf 0x41411184) (Lf
  0x3D800000))) (Nd (Nd (Lf 0x3D800000) (Lf 0x41411185)) (Nd (Lf 0x41411186) (Lf 0x41411187)))) (Nd (Nd (Nd
  (Lf 0x41411188) (Lf 0x41411189)) (Nd (Lf 0x4141118A) (Lf 0x4141118B))) (Nd (Nd (Lf 0x4141118C) (Lf
  0x4141118D)) (Nd (Lf 0x4141118E) (Lf 0x3D800000)))))).
Definition up_287 : trie N :=
  (Nd (Nd (Nd (Nd (Nd (Lf 0x4141118F) (Lf 0x3D800000)) (Nd (Lf 0x41411190) (Lf 0x3D800000))) (Nd (Nd (Lf
  0x3D800000) (Lf 0x41411191)) (Nd (Lf 0x41411192) (Lf 0x3D800000)))) (Nd (Nd (Nd (Lf 0x3D800000) (Lf
  0x3D800000)) (Nd (Lf 0x41411193) (Lf 0x41411194))) (Nd (Nd (Lf 0x41411195) (Lf 0x41411196)) (Nd (Lf
  0x14400000) (Lf 0x14400000))))) (Nd (Nd (Nd (Nd (Lf 0x41411197) (Lf 0x41411198)) (Nd (Lf 0x41411199) (Lf
  0x4141119A))) (Nd (Nd (Lf 0x4141119B) (Lf 0x4141119C)) (Nd (Lf 0x4141119D) (Lf 0x4141119E)))) (Nd (Nd (Nd
  (Lf 0x4141119F) (Lf 0x414111A0)) (Nd (Lf 0x414111A1) (Lf 0x414111A2))) (Nd (Nd (Lf 0x414111A3) (Lf
  0x414111A4)) (Nd (Lf 0x414111A5) (Lf 0x414111A6)))))).
Definition up_288 : trie N :=
  (Nd (Nd (Nd (Nd (Nd (Lf 0x414111A7) (Lf 0x414111A8)) (Nd (Lf 0x414111A9) (Lf 0x414111AA))) (Nd (Nd (Lf
  0x414111AB) (Lf 0x414111AC)) (Nd (Lf 0x414111AD) (Lf 0x414111AE)))) (Nd (Nd (Nd (Lf 0x414111AF) (Lf
  0x414111B0)) (Nd (Lf 0x414111B1) (Lf 0x414111B2))) (Nd (Nd (Lf 0x414111B3) (Lf 0x414111B4)) (Nd (Lf
  0x414111B5) (Lf 0x414111B6))))) (Nd (Nd (Nd (Nd (Lf 0x414111B7) (Lf 0x414111B8)) (Nd (Lf 0x414111B9) (Lf
  0x414111BA))) (Nd (Nd (Lf 0x414111BB) (Lf 0x414111BC)) (Nd (Lf 0x414111BD) (Lf 0x414111BE)))) (Nd (Nd (Nd
  (Lf 0x414111BF) (Lf 0x414111C0)) (Nd (Lf 0x414111C1) (Lf 0x414111C2))) (Nd (Nd (Lf 0x414111C3) (Lf
  0x414111C4)) (Nd (Lf 0x414111C5) (Lf 0x414111C6)))))).
Definition up_289 : trie N :=
  (Nd (Nd (Nd (Nd (Nd (Lf 0x414111C7) (Lf 0x414111C8)) (Nd (Lf 0x414111C9) (Lf 0x414111CA))) (Nd (Nd (Lf
  0x414111CB) (Lf 0x414111CC)) (Nd (Lf 0x414111CD) (Lf 0x414111CE)))) (Nd (Nd (Nd (Lf 0x414111CF) (Lf
  0x414111D0)) (Nd (Lf 0x414111D1) (Lf 0x14400000))) (Nd (Nd (Lf 0x14400000) (Lf 0x14400000)) (Nd (Lf
  0x14400000) (Lf 0x14400000))))) (Nd (Nd (Nd (Nd (Lf 0x14400000) (Lf 0x14400000)) (Nd (Lf 0x14400000) (Lf
  0x14400000))) (Nd (Nd (Lf 0x14400000) (Lf 0x14400000)) (Nd (Lf 0x14400000) (Lf 0x14400000)))) (Nd (Nd (Nd
  (Lf 0x14400000) (Lf 0x14400000)) (Nd (Lf 0x14400000) (Lf 0x14400000))) (Nd (Nd (Lf 0x14400000) (Lf
  0x14400000)) (Nd (Lf 0x14400000) (Lf 0x14400000)))))).
Definition up_290 : trie N :=
  (Nd (Nd (Nd (Nd (Nd (Lf 0x7C211D2) (Lf 0x7C211D4)) (Nd (Lf 0x7C211D6) (Lf 0x7C311D8))) (Nd (Nd (Lf
  0x7C311DB) (Lf 0x7C211DE)) (Nd (Lf 0x7C211E0) (Lf 0x14400000)))) (Nd (Nd (Nd (Lf 0x14400000) (Lf
  0x14400000)) (Nd (Lf 0x14400000) (Lf 0x14400000))) (Nd (Nd (Lf 0x14400000) (Lf 0x14400000)) (Nd (Lf
  0x14400000) (Lf 0x14400000))))) (Nd (Nd (Nd (Nd (Lf 0x14400000) (Lf 0x14400000)) (Nd (Lf 0x14400000) (Lf
  0x7C211E2))) (Nd (Nd (Lf 0x7C211E4) (Lf 0x7C211E6)) (Nd (Lf 0x7C211E8) (Lf 0x7C211EA)))) (Nd (Nd (Nd (Lf
  0x14400000) (Lf 0x14400000)) (Nd (Lf 0x14400000) (Lf 0x14400000))) (Nd (Nd (Lf 0x14400000) (Lf 0x418211EC))
  (Nd (Lf 0x19000000) (Lf 0x418211EE)))))).
Definition up_291 : trie N :=
  (Nd (Nd (Nd (Nd (Nd (Lf 0x41C111F0) (Lf 0x41C111F1)) (Nd (Lf 0x41C111F2) (Lf 0x41C111F3))) (Nd (Nd (Lf
  0x41C111F4) (Lf 0x41C111F5)) (Nd (Lf 0x41C111F6) (Lf 0x41C111F7)))) (Nd (Nd (Nd (Lf 0x41C111F8) (Lf
  0x370111F9)) (Nd (Lf 0x418211FA) (Lf 0x418211FC))) (Nd (Nd (Lf 0x418211FE) (Lf 0x41821200)) (Nd (Lf
  0x41821202) (Lf 0x41821204))))) (Nd (Nd (Nd (Nd (Lf 0x41821206) (Lf 0x41821208)) (Nd (Lf 0x4182120A) (Lf
  0x4182120C))) (Nd (Nd (Lf 0x4182120E) (Lf 0x41821210)) (Nd (Lf 0x41821212) (Lf 0x14400000)))) (Nd (Nd (Nd
  (Lf 0x41821214) (Lf 0x41821216)) (Nd (Lf 0x41821218) (Lf 0x4182121A))) (Nd (Nd (Lf 0x4182121C) (Lf
  0x14400000)) (Nd (Lf 0x4182121E) (Lf 0x14400000)))))).
Definition up_292 : trie N :=
  (Nd (Nd (Nd (Nd (Nd (Lf 0x41821220) (Lf 0x41821222)) (Nd (Lf 0x14400000) (Lf 0x41821224))) (Nd (Nd (Lf
  0x41821226) (Lf 0x14400000)) (Nd (Lf 0x41821228) (Lf 0x4182122A)))) (Nd (Nd (Nd (Lf 0x4182122C) (Lf
  0x4182122E)) (Nd (Lf 0x41821230) (Lf 0x41821232))) (Nd (Nd (Lf 0x41821234) (Lf 0x41821236)) (Nd (Lf
  0x41821238) (Lf 0x41C2123A))))) (Nd (Nd (Nd (Nd (Lf 0x25C1123C) (Lf 0x25C1123D)) (Nd (Lf 0x25C1123E) (Lf
  0x25C1123F))) (Nd (Nd (Lf 0x25C11240) (Lf 0x25C11241)) (Nd (Lf 0x25C11242) (Lf 0x25C11243)))) (Nd (Nd (Nd
  (Lf 0x25C11244) (Lf 0x25C11245)) (Nd (Lf 0x25C11246) (Lf 0x25C11247))) (Nd (Nd (Lf 0x25C11248) (Lf
  0x25C11249)) (Nd (Lf 0x25C1124A) (Lf 0x25C1124B)))))).
Definition up_293 : trie N :=
  (Nd (Nd (Nd (Nd (Nd (Lf 0x25C1124C) (Lf 0x25C1124D)) (Nd (Lf 0x25C1124E) (Lf 0x25C1124F))) (Nd (Nd (Lf
  0x25C11250) (Lf 0x25C11251)) (Nd (Lf 0x25C11252) (Lf 0x25C11253)))) (Nd (Nd (Nd (Lf 0x25C11254) (Lf
  0x25C11255)) (Nd (Lf 0x25C11256) (Lf 0x25C11257))) (Nd (Nd (Lf 0x25C11258) (Lf 0x25C11259)) (Nd (Lf
  0x25C1125A) (Lf 0x25C1125B))))) (Nd (Nd (Nd (Nd (Lf 0x25C1125C) (Lf 0x25C1125D)) (Nd (Lf 0x25C1125E) (Lf
  0x25C1125F))) (Nd (Nd (Lf 0x25C11260) (Lf 0x25C11261)) (Nd (Lf 0x25C11262) (Lf 0x25C11263)))) (Nd (Nd (Nd
  (Lf 0x25C11264) (Lf 0x25C11265)) (Nd (Lf 0x25C11266) (Lf 0x25C11267))) (Nd (Nd (Lf 0x25C11268) (Lf
  0x25C11269)) (Nd (Lf 0x25C1126A) (Lf 0x25C1126B)))))).
Definition up_294 : trie N :=
  (Nd (Nd (Nd (Nd (Nd (Lf 0x25C1126C) (Lf 0x25C1126D)) (Nd (Lf 0x25C1126E) (Lf 0x25C1126F))) (Nd (Nd (Lf
  0x25C11270) (Lf 0x25C11271)) (Nd (Lf 0x25C11272) (Lf 0x25C11273)))) (Nd (Nd (Nd (Lf 0x25C11274) (Lf
  0x25C11275)) (Nd (Lf 0x25C11276) (Lf 0x25C11277))) (Nd (Nd (Lf 0x25C11278) (Lf 0x25C11279)) (Nd (Lf
  0x25C1127A) (Lf 0x25C1127B))))) (Nd (Nd (Nd (Nd (Lf 0x25C1127C) (Lf 0x25C1127D)) (Nd (Lf 0x25C1127E) (Lf
  0x25C1127F))) (Nd (Nd (Lf 0x25C11280) (Lf 0x25C11281)) (Nd (Lf 0x25C11282) (Lf 0x25C11283)))) (Nd (Nd (Nd
  (Lf 0x25C11284) (Lf 0x25C11285)) (Nd (Lf 0x25C11286) (Lf 0x25C11287))) (Nd (Nd (Lf 0x25C11288) (Lf
  0x25C11289)) (Nd (Lf 0x25C1128A) (Lf 0x25C1128B)))))).
Definition up_295 : trie N :=
  (Nd (Nd (Nd (Nd (Nd (Lf 0x25C1128C) (Lf 0x25C1128D)) (Nd (Lf 0x25C1128E) (Lf 0x25C1128F))) (Nd (Nd (Lf
  0x25C11290) (Lf 0x25C11291)) (Nd (Lf 0x25C11292) (Lf 0x25C11293)))) (Nd (Nd (Nd (Lf 0x25C11294) (Lf
  0x25C11295)) (Nd (Lf 0x25C11296) (Lf 0x25C11297))) (Nd (Nd (Lf 0x25C11298) (Lf 0x25C11299)) (Nd (Lf
  0x25C1129A) (Lf 0x25C1129B))))) (Nd (Nd (Nd (Nd (Lf 0x25C1129C) (Lf 0x25C1129D)) (Nd (Lf 0x14400000) (Lf
  0x14400000))) (Nd (Nd (Lf 0x14400000) (Lf 0x14400000)) (Nd (Lf 0x14400000) (Lf 0x14400000)))) (Nd (Nd (Nd
  (Lf 0x14400000) (Lf 0x14400000)) (Nd (Lf 0x14400000) (Lf 0x14400000))) (Nd (Nd (Lf 0x14400000) (Lf
  0x14400000)) (Nd (Lf 0x14400000) (Lf 0x14400000)))))).
Definition up_296 : trie N :=
  (Nd (Nd (Nd (Nd (Nd (Lf 0x14400000) (Lf 0x14400000)) (Nd (Lf 0x14400000) (Lf 0x14400000))) (Nd (Nd (Lf
  0x14400000) (Lf 0x14400000)) (Nd (Lf 0x14400000) (Lf 0x14400000)))) (Nd (Nd (Nd (Lf 0x14400000) (Lf
  0x14400000)) (Nd (Lf 0x14400000) (Lf 0x14400000))) (Nd (Nd (Lf 0x14400000) (Lf 0x14400000)) (Nd (Lf
  0x14400000) (Lf 0x14400000))))) (Nd (Nd (Nd (Nd (Lf 0x14400000) (Lf 0x14400000)) (Nd (Lf 0x14400000) (Lf
  0x25C1129E))) (Nd (Nd (Lf 0x25C1129F) (Lf 0x25C112A0)) (Nd (Lf 0x25C112A1) (Lf 0x25C112A2)))) (Nd (Nd (Nd
  (Lf 0x25C112A3) (Lf 0x25C112A4)) (Nd (Lf 0x25C112A5) (Lf 0x25C112A6))) (Nd (Nd (Lf 0x25C112A7) (Lf
  0x25C112A8)) (Nd (Lf 0x25C112A9) (Lf 0x25C112AA)))))).
Definition up_297 : trie N :=
  (Nd (Nd (Nd (Nd (Nd (Lf 0x25C112AB) (Lf 0x25C112AC)) (Nd (Lf 0x25C112AD) (Lf 0x25C112AE))) (Nd (Nd (Lf
  0x25C112AF) (Lf 0x25C112B0)) (Nd (Lf 0x25C112B1) (Lf 0x25C112B2)))) (Nd (Nd (Nd (Lf 0x25C112B3) (Lf
  0x25C112B4)) (Nd (Lf 0x420212B5) (Lf 0x420212B7))) (Nd (Nd (Lf 0x420212B9) (Lf 0x420212BB)) (Nd (Lf
  0x420212BD) (Lf 0x420212BF))))) (Nd (Nd (Nd (Nd (Lf 0x420212C1) (Lf 0x420212C3)) (Nd (Lf 0x420212C5) (Lf
  0x420212C7))) (Nd (Nd (Lf 0x420212C9) (Lf 0x420212CB)) (Nd (Lf 0x420212CD) (Lf 0x420212CF)))) (Nd (Nd (Nd
  (Lf 0x420212D1) (Lf 0x420212D3)) (Nd (Lf 0x420212D5) (Lf 0x420212D7))) (Nd (Nd (Lf 0x25C112D9) (Lf
  0x25C112DA)) (Nd (Lf 0x25C112DB) (Lf 0x25C112DC)))))).
Definition up_298 : trie N :=
  (Nd (Nd (Nd (Nd (Nd (Lf 0x420212DD) (Lf 0x420212DF)) (Nd (Lf 0x420212E1) (Lf 0x420212E3))) (Nd (Nd (Lf
  0x420212E5) (Lf 0x420212E7)) (Nd (Lf 0x420212E9) (Lf 0x420212EB)))) (Nd (Nd (Nd (Lf 0x420212ED) (Lf
  0x420212EF)) (Nd (Lf 0x420212F1) (Lf 0x420212F3))) (Nd (Nd (Lf 0x420212F5) (Lf 0x420212F7)) (Nd (Lf
  0x420212F9) (Lf 0x420212FB))))) (Nd (Nd (Nd (Nd (Lf 0x420212FD) (Lf 0x420212FF)) (Nd (Lf 0x42021301) (Lf
  0x42021303))) (Nd (Nd (Lf 0x42021305) (Lf 0x42021307)) (Nd (Lf 0x42021309) (Lf 0x4202130B)))) (Nd (Nd (Nd
  (Lf 0x4202130D) (Lf 0x4202130F)) (Nd (Lf 0x42021311) (Lf 0x42021313))) (Nd (Nd (Lf 0x42021315) (Lf
  0x42021317)) (Nd (Lf 0x42021319) (Lf 0x4202131B)))))).
Definition up_299 : trie N :=
  (Nd (Nd (Nd (Nd (Nd (Lf 0x4202131D) (Lf 0x4202131F)) (Nd (Lf 0x42021321) (Lf 0x42021323))) (Nd (Nd (Lf
  0x42021325) (Lf 0x42021327)) (Nd (Lf 0x42021329) (Lf 0x4202132B)))) (Nd (Nd (Nd (Lf 0x4202132D) (Lf
  0x4202132F)) (Nd (Lf 0x42021331) (Lf 0x42021333))) (Nd (Nd (Lf 0x42021335) (Lf 0x42021337)) (Nd (Lf
  0x42021339) (Lf 0x4202133B))))) (Nd (Nd (Nd (Nd (Lf 0x4202133D) (Lf 0x4202133F)) (Nd (Lf 0x42021341) (Lf
  0x42021343))) (Nd (Nd (Lf 0x42021345) (Lf 0x42021347)) (Nd (Lf 0x42021349) (Lf 0x4202134B)))) (Nd (Nd (Nd
  (Lf 0x4202134D) (Lf 0x4202134F)) (Nd (Lf 0x42021351) (Lf 0x42021353))) (Nd (Nd (Lf 0x42021355) (Lf
  0x42021357)) (Nd (Lf 0x42021359) (Lf 0x4202135B)))))).
Definition up_300 : trie N :=
  (Nd (Nd (Nd (Nd (Nd (Lf 0x4202135D) (Lf 0x4202135F)) (Nd (Lf 0x42021361) (Lf 0x42021363))) (Nd (Nd (Lf
  0x42021365) (Lf 0x42021367)) (Nd (Lf 0x42021369) (Lf 0x4202136B)))) (Nd (Nd (Nd (Lf 0x4202136D) (Lf
  0x4202136F)) (Nd (Lf 0x42021371) (Lf 0x42021373))) (Nd (Nd (Lf 0x42021375) (Lf 0x42021377)) (Nd (Lf
  0x42021379) (Lf 0x4202137B))))) (Nd (Nd (Nd (Nd (Lf 0x4202137D) (Lf 0x4202137F)) (Nd (Lf 0x42021381) (Lf
  0x42021383))) (Nd (Nd (Lf 0x42021385) (Lf 0x42021387)) (Nd (Lf 0x42021389) (Lf 0x4202138B)))) (Nd (Nd (Nd
  (Lf 0x4202138D) (Lf 0x4202138F)) (Nd (Lf 0x42021391) (Lf 0x42021393))) (Nd (Nd (Lf 0x42021395) (Lf
  0x42021397)) (Nd (Lf 0x42031399) (Lf 0x4203139C)))))).
Definition up_301 : trie N :=
  (Nd (Nd (Nd (Nd (Nd (Lf 0x4203139F) (Lf 0x420313A2)) (Nd (Lf 0x420313A5) (Lf 0x420313A8))) (Nd (Nd (Lf
  0x420213AB) (Lf 0x420213AD)) (Nd (Lf 0x420213AF) (Lf 0x420213B1)))) (Nd (Nd (Nd (Lf 0x420213B3) (Lf
  0x420213B5)) (Nd (Lf 0x420213B7) (Lf 0x420213B9))) (Nd (Nd (Lf 0x420213BB) (Lf 0x420213BD)) (Nd (Lf
  0x420213BF) (Lf 0x420213C1))))) (Nd (Nd (Nd (Nd (Lf 0x420213C3) (Lf 0x420213C5)) (Nd (Lf 0x420213C7) (Lf
  0x420213C9))) (Nd (Nd (Lf 0x420213CB) (Lf 0x420213CD)) (Nd (Lf 0x420213CF) (Lf 0x420213D1)))) (Nd (Nd (Nd
  (Lf 0x420213D3) (Lf 0x420213D5)) (Nd (Lf 0x420213D7) (Lf 0x420213D9))) (Nd (Nd (Lf 0x420213DB) (Lf
  0x420213DD)) (Nd (Lf 0x420213DF) (Lf 0x420213E1)))))).
Definition up_302 : trie N :=
  (Nd (Nd (Nd (Nd (Nd (Lf 0x420213E3) (Lf 0x420213E5)) (Nd (Lf 0x420213E7) (Lf 0x420213E9))) (Nd (Nd (Lf
  0x420213EB) (Lf 0x420213ED)) (Nd (Lf 0x420213EF) (Lf 0x420213F1)))) (Nd (Nd (Nd (Lf 0x420213F3) (Lf
  0x420213F5)) (Nd (Lf 0x420213F7) (Lf 0x420213F9))) (Nd (Nd (Lf 0x420213FB) (Lf 0x420213FD)) (Nd (Lf
  0x420213FF) (Lf 0x42021401))))) (Nd (Nd (Nd (Nd (Lf 0x42021403) (Lf 0x42021405)) (Nd (Lf 0x42021407) (Lf
  0x42021409))) (Nd (Nd (Lf 0x4202140B) (Lf 0x4202140D)) (Nd (Lf 0x4202140F) (Lf 0x42021411)))) (Nd (Nd (Nd
  (Lf 0x42021413) (Lf 0x42021415)) (Nd (Lf 0x42021417) (Lf 0x42021419))) (Nd (Nd (Lf 0x4202141B) (Lf
  0x4202141D)) (Nd (Lf 0x4202141F) (Lf 0x42021421)))))).
Definition up_303 : trie N :=
  (Nd (Nd (Nd (Nd (Nd (Lf 0x42021423) (Lf 0x42021425)) (Nd (Lf 0x42021427) (Lf 0x42021429))) (Nd (Nd (Lf
  0x4202142B) (Lf 0x4202142D)) (Nd (Lf 0x4202142F) (Lf 0x42021431)))) (Nd (Nd (Nd (Lf 0x42021433) (Lf
  0x42021435)) (Nd (Lf 0x42021437) (Lf 0x42021439))) (Nd (Nd (Lf 0x4202143B) (Lf 0x4202143D)) (Nd (Lf
  0x4202143F) (Lf 0x42021441))))) (Nd (Nd (Nd (Nd (Lf 0x42021443) (Lf 0x42021445)) (Nd (Lf 0x42021447) (Lf
  0x42021449))) (Nd (Nd (Lf 0x4202144B) (Lf 0x4202144D)) (Nd (Lf 0x4202144F) (Lf 0x42021451)))) (Nd (Nd (Nd
  (Lf 0x42021453) (Lf 0x42021455)) (Nd (Lf 0x42021457) (Lf 0x42021459))) (Nd (Nd (Lf 0x4202145B) (Lf
  0x4202145D)) (Nd (Lf 0x4202145F) (Lf 0x42021461)))))).
Definition up_304 : trie N :=
  (Nd (Nd (Nd (Nd (Nd (Lf 0x42021463) (Lf 0x42021465)) (Nd (Lf 0x42021467) (Lf 0x42021469))) (Nd (Nd (Lf
  0x4202146B) (Lf 0x4202146D)) (Nd (Lf 0x4202146F) (Lf 0x42021471)))) (Nd (Nd (Nd (Lf 0x42021473) (Lf
  0x42021475)) (Nd (Lf 0x42021477) (Lf 0x42021479))) (Nd (Nd (Lf 0x4202147B) (Lf 0x4202147D)) (Nd (Lf
  0x4202147F) (Lf 0x42021481))))) (Nd (Nd (Nd (Nd (Lf 0x42021483) (Lf 0x42021485)) (Nd (Lf 0x42021487) (Lf
  0x42021489))) (Nd (Nd (Lf 0x4202148B) (Lf 0x4202148D)) (Nd (Lf 0x4202148F) (Lf 0x42021491)))) (Nd (Nd (Nd
  (Lf 0x42021493) (Lf 0x42021495)) (Nd (Lf 0x42021497) (Lf 0x42021499))) (Nd (Nd (Lf 0x4202149B) (Lf
  0x4202149D)) (Nd (Lf 0x4202149F) (Lf 0x420214A1)))))).
Definition up_305 : trie N :=
  (Nd (Nd (Nd (Nd (Nd (Lf 0x420214A3) (Lf 0x420214A5)) (Nd (Lf 0x420214A7) (Lf 0x420214A9))) (Nd (Nd (Lf
  0x420214AB) (Lf 0x420214AD)) (Nd (Lf 0x420214AF) (Lf 0x420214B1)))) (Nd (Nd (Nd (Lf 0x420214B3) (Lf
  0x420214B5)) (Nd (Lf 0x420214B7) (Lf 0x420214B9))) (Nd (Nd (Lf 0x420214BB) (Lf 0x420214BD)) (Nd (Lf
  0x420214BF) (Lf 0x420214C1))))) (Nd (Nd (Nd (Nd (Lf 0x420214C3) (Lf 0x420214C5)) (Nd (Lf 0x420314C7) (Lf
  0x420314CA))) (Nd (Nd (Lf 0x420314CD) (Lf 0x420214D0)) (Nd (Lf 0x420214D2) (Lf 0x420214D4)))) (Nd (Nd (Nd
  (Lf 0x420214D6) (Lf 0x420214D8)) (Nd (Lf 0x420214DA) (Lf 0x420214DC))) (Nd (Nd (Lf 0x420214DE) (Lf
  0x420214E0)) (Nd (Lf 0x420214E2) (Lf 0x420214E4)))))).
Definition up_306 : trie N :=
  (Nd (Nd (Nd (Nd (Nd (Lf 0x420214E6) (Lf 0x420214E8)) (Nd (Lf 0x420214EA) (Lf 0x420214EC))) (Nd (Nd (Lf
  0x420214EE) (Lf 0x420214F0)) (Nd (Lf 0x420214F2) (Lf 0x420214F4)))) (Nd (Nd (Nd (Lf 0x420214F6) (Lf
  0x420214F8)) (Nd (Lf 0x420214FA) (Lf 0x420214FC))) (Nd (Nd (Lf 0x420214FE) (Lf 0x42021500)) (Nd (Lf
  0x42021502) (Lf 0x42021504))))) (Nd (Nd (Nd (Nd (Lf 0x42021506) (Lf 0x42021508)) (Nd (Lf 0x4202150A) (Lf
  0x4202150C))) (Nd (Nd (Lf 0x4202150E) (Lf 0x42021510)) (Nd (Lf 0x42021512) (Lf 0x42021514)))) (Nd (Nd (Nd
  (Lf 0x42021516) (Lf 0x42021518)) (Nd (Lf 0x4202151A) (Lf 0x4202151C))) (Nd (Nd (Lf 0x4202151E) (Lf
  0x42021520)) (Nd (Lf 0x42021522) (Lf 0x42021524)))))).
Definition up_307 : trie N :=
  (Nd (Nd (Nd (Nd (Nd (Lf 0x42021526) (Lf 0x42021528)) (Nd (Lf 0x4202152A) (Lf 0x4202152C))) (Nd (Nd (Lf
  0x4202152E) (Lf 0x42021530)) (Nd (Lf 0x42021532) (Lf 0x42021534)))) (Nd (Nd (Nd (Lf 0x42021536) (Lf
  0x42021538)) (Nd (Lf 0x4202153A) (Lf 0x4202153C))) (Nd (Nd (Lf 0x4202153E) (Lf 0x42021540)) (Nd (Lf
  0x42021542) (Lf 0x42021544))))) (Nd (Nd (Nd (Nd (Lf 0x42021546) (Lf 0x42021548)) (Nd (Lf 0x4202154A) (Lf
  0x4202154C))) (Nd (Nd (Lf 0x4202154E) (Lf 0x42021550)) (Nd (Lf 0x42021552) (Lf 0x42021554)))) (Nd (Nd (Nd
  (Lf 0x42021556) (Lf 0x42021558)) (Nd (Lf 0x4202155A) (Lf 0x4202155C))) (Nd (Nd (Lf 0x4202155E) (Lf
  0x42021560)) (Nd (Lf 0x3000000) (Lf 0x3400000)))))).
Definition up_308 : trie N :=
  (Nd (Nd (Nd (Nd (Nd (Lf 0x14400000) (Lf 0x14400000)) (Nd (Lf 0x14400000) (Lf 0x14400000))) (Nd (Nd (Lf
  0x14400000) (Lf 0x14400000)) (Nd (Lf 0x14400000) (Lf 0x14400000)))) (Nd (Nd (Nd (Lf 0x14400000) (Lf
  0x14400000)) (Nd (Lf 0x14400000) (Lf 0x14400000))) (Nd (Nd (Lf 0x14400000) (Lf 0x14400000)) (Nd (Lf
  0x14400000) (Lf 0x14400000))))) (Nd (Nd (Nd (Nd (Lf 0x42031562) (Lf 0x42031565)) (Nd (Lf 0x42031568) (Lf
  0x4203156B))) (Nd (Nd (Lf 0x4203156E) (Lf 0x42031571)) (Nd (Lf 0x42031574) (Lf 0x42031577)))) (Nd (Nd (Nd
  (Lf 0x4203157A) (Lf 0x4203157D)) (Nd (Lf 0x42031580) (Lf 0x42031583))) (Nd (Nd (Lf 0x42031586) (Lf
  0x42031589)) (Nd (Lf 0x4203158C) (Lf 0x4203158F)))))).
Definition up_309 : trie N :=
  (Nd (Nd (Nd (Nd (Nd (Lf 0x42031592) (Lf 0x42031595)) (Nd (Lf 0x42031598) (Lf 0x4203159B))) (Nd (Nd (Lf
  0x4203159E) (Lf 0x420315A1)) (Nd (Lf 0x420315A4) (Lf 0x420315A7)))) (Nd (Nd (Nd (Lf 0x420315AA) (Lf
  0x420315AD)) (Nd (Lf 0x420315B0) (Lf 0x420315B3))) (Nd (Nd (Lf 0x420315B6) (Lf 0x420315B9)) (Nd (Lf
  0x420315BC) (Lf 0x420315BF))))) (Nd (Nd (Nd (Nd (Lf 0x420315C2) (Lf 0x420315C5)) (Nd (Lf 0x420315C8) (Lf
  0x420315CB))) (Nd (Nd (Lf 0x420315CE) (Lf 0x420315D1)) (Nd (Lf 0x420315D4) (Lf 0x420315D7)))) (Nd (Nd (Nd
  (Lf 0x420315DA) (Lf 0x420315DD)) (Nd (Lf 0x420315E0) (Lf 0x420315E3))) (Nd (Nd (Lf 0x420315E6) (Lf
  0x420315E9)) (Nd (Lf 0x420315EC) (Lf 0x420315EF)))))).
Definition up_310 : trie N :=
  (Nd (Nd (Nd (Nd (Nd (Lf 0x420315F2) (Lf 0x420315F5)) (Nd (Lf 0x420315F8) (Lf 0x420315FB))) (Nd (Nd (Lf
  0x420315FE) (Lf 0x42031601)) (Nd (Lf 0x42031604) (Lf 0x42031607)))) (Nd (Nd (Nd (Lf 0x4203160A) (Lf
  0x4203160D)) (Nd (Lf 0x42031610) (Lf 0x42031613))) (Nd (Nd (Lf 0x42031616) (Lf 0x42031619)) (Nd (Lf
  0x4203161C) (Lf 0x4203161F))))) (Nd (Nd (Nd (Nd (Lf 0x14400000) (Lf 0x14400000)) (Nd (Lf 0x42031622) (Lf
  0x42031625))) (Nd (Nd (Lf 0x42031628) (Lf 0x4203162B)) (Nd (Lf 0x4203162E) (Lf 0x42031631)))) (Nd (Nd (Nd
  (Lf 0x42031634) (Lf 0x42031637)) (Nd (Lf 0x4203163A) (Lf 0x4203163D))) (Nd (Nd (Lf 0x42031640) (Lf
  0x42031643)) (Nd (Lf 0x42031646) (Lf 0x42031649)))))).
Definition up_311 : trie N :=
  (Nd (Nd (Nd (Nd (Nd (Lf 0x4203164C) (Lf 0x4203164F)) (Nd (Lf 0x42031652) (Lf 0x42031655))) (Nd (Nd (Lf
  0x42031658) (Lf 0x4203165B)) (Nd (Lf 0x4203165E) (Lf 0x42031661)))) (Nd (Nd (Nd (Lf 0x42031664) (Lf
  0x42031667)) (Nd (Lf 0x4203166A) (Lf 0x4203166D))) (Nd (Nd (Lf 0x42031670) (Lf 0x42031673)) (Nd (Lf
  0x42031676) (Lf 0x42031679))))) (Nd (Nd (Nd (Nd (Lf 0x4203167C) (Lf 0x4203167F)) (Nd (Lf 0x42031682) (Lf
  0x42031685))) (Nd (Nd (Lf 0x42031688) (Lf 0x4203168B)) (Nd (Lf 0x4203168E) (Lf 0x42031691)))) (Nd (Nd (Nd
  (Lf 0x42031694) (Lf 0x42031697)) (Nd (Lf 0x4203169A) (Lf 0x4203169D))) (Nd (Nd (Lf 0x420316A0) (Lf
  0x420316A3)) (Nd (Lf 0x420316A6) (Lf 0x420316A9)))))).
Definition up_312 : trie N :=
  (Nd (Nd (Nd (Nd (Nd (Lf 0x420316AC) (Lf 0x420316AF)) (Nd (Lf 0x420316B2) (Lf 0x420316B5))) (Nd (Nd (Lf
  0x420316B8) (Lf 0x420316BB)) (Nd (Lf 0x420316BE) (Lf 0x420316C1)))) (Nd (Nd (Nd (Lf 0x14400000) (Lf
  0x14400000)) (Nd (Lf 0x14400000) (Lf 0x14400000))) (Nd (Nd (Lf 0x14400000) (Lf 0x14400000)) (Nd (Lf
  0x14400000) (Lf 0x14400000))))) (Nd (Nd (Nd (Nd (Lf 0x14400000) (Lf 0x14400000)) (Nd (Lf 0x14400000) (Lf
  0x14400000))) (Nd (Nd (Lf 0x14400000) (Lf 0x14400000)) (Nd (Lf 0x14400000) (Lf 0x14400000)))) (Nd (Nd (Nd
  (Lf 0x14400000) (Lf 0x14400000)) (Nd (Lf 0x14400000) (Lf 0x14400000))) (Nd (Nd (Lf 0x14400000) (Lf
  0x14400000)) (Nd (Lf 0x14400000) (Lf 0x14400000)))))).
Definition up_313 : trie N :=
  (Nd (Nd (Nd (Nd (Nd (Lf 0x14400000) (Lf 0x14400000)) (Nd (Lf 0x14400000) (Lf 0x14400000))) (Nd (Nd (Lf
  0x14400000) (Lf 0x14400000)) (Nd (Lf 0x14400000) (Lf 0x14400000)))) (Nd (Nd (Nd (Lf 0x14400000) (Lf
  0x14400000)) (Nd (Lf 0x14400000) (Lf 0x14400000))) (Nd (Nd (Lf 0x14400000) (Lf 0x14400000)) (Nd (Lf
  0x14400000) (Lf 0x14400000))))) (Nd (Nd (Nd (Nd (Lf 0x420316C4) (Lf 0x420316C7)) (Nd (Lf 0x420416CA) (Lf
  0x420416CE))) (Nd (Nd (Lf 0x420416D2) (Lf 0x420416D6)) (Nd (Lf 0x420416DA) (Lf 0x420416DE)))) (Nd (Nd (Nd
  (Lf 0x420416E2) (Lf 0x420316E6)) (Nd (Lf 0x421216E9) (Lf 0x420816FB))) (Nd (Nd (Lf 0x42441703) (Lf
  0x7400000)) (Nd (Lf 0x14400000) (Lf 0x14400000)))))).
Definition up_314 : trie N :=
  (Nd (Nd (Nd (Nd (Nd (Lf 0x19C00000) (Lf 0x19C00000)) (Nd (Lf 0x19C00000) (Lf 0x19C00000))) (Nd (Nd (Lf
  0x19C00000) (Lf 0x19C00000)) (Nd (Lf 0x19C00000) (Lf 0x19C00000)))) (Nd (Nd (Nd (Lf 0x19C00000) (Lf
  0x19C00000)) (Nd (Lf 0x19C00000) (Lf 0x19C00000))) (Nd (Nd (Lf 0x19C00000) (Lf 0x19C00000)) (Nd (Lf
  0x19C00000) (Lf 0x19C00000))))) (Nd (Nd (Nd (Nd (Lf 0x14400000) (Lf 0x14400000)) (Nd (Lf 0x14400000) (Lf
  0x14400000))) (Nd (Nd (Lf 0x14400000) (Lf 0x14400000)) (Nd (Lf 0x14400000) (Lf 0x14400000)))) (Nd (Nd (Nd
  (Lf 0x14400000) (Lf 0x14400000)) (Nd (Lf 0x14400000) (Lf 0x14400000))) (Nd (Nd (Lf 0x14400000) (Lf
  0x14400000)) (Nd (Lf 0x14400000) (Lf 0x14400000)))))).
Definition up_315 : trie N :=
  (Nd (Nd (Nd (Nd (Nd (Lf 0x19000000) (Lf 0x19000000)) (Nd (Lf 0x19000000) (Lf 0x19000000))) (Nd (Nd (Lf
  0x14400000) (Lf 0x14400000)) (Nd (Lf 0x14400000) (Lf 0x14400000)))) (Nd (Nd (Nd (Lf 0x14400000) (Lf
  0x14400000)) (Nd (Lf 0x14400000) (Lf 0x14400000))) (Nd (Nd (Lf 0x14400000) (Lf 0x14400000)) (Nd (Lf
  0x14400000) (Lf 0x14400000))))) (Nd (Nd (Nd (Nd (Lf 0x33811707) (Lf 0x42811708)) (Nd (Lf 0x42811709) (Lf
  0x42C1170A))) (Nd (Nd (Lf 0x42C1170B) (Lf 0x37C1170C)) (Nd (Lf 0x3801170D) (Lf 0x37C1170E)))) (Nd (Nd (Nd
  (Lf 0x3801170F) (Lf 0x37C11710)) (Nd (Lf 0x38011711) (Lf 0x37C11712))) (Nd (Nd (Lf 0x38011713) (Lf
  0x37C11714)) (Nd (Lf 0x38011715) (Lf 0x37C11716)))))).
Definition up_316 : trie N :=
  (Nd (Nd (Nd (Nd (Nd (Lf 0x38011717) (Lf 0x43011718)) (Nd (Lf 0x43411719) (Lf 0x4301171A))) (Nd (Nd (Lf
  0x4341171B) (Lf 0x2800000)) (Nd (Lf 0x2800000) (Lf 0x37C1171C)))) (Nd (Nd (Nd (Lf 0x3801171D) (Lf
  0x3381171E)) (Nd (Lf 0x3381171F) (Lf 0x33811720))) (Nd (Nd (Lf 0x33811721) (Lf 0x42C11722)) (Nd (Lf
  0x42C11723) (Lf 0x42C11724))))) (Nd (Nd (Nd (Nd (Lf 0x43811725) (Lf 0x34C11726)) (Nd (Lf 0x43811727) (Lf
  0x14400000))) (Nd (Nd (Lf 0x34C11728) (Lf 0x43811729)) (Nd (Lf 0x34C1172A) (Lf 0x34C1172B)))) (Nd (Nd (Nd
  (Lf 0x4281172C) (Lf 0x37C1172D)) (Nd (Lf 0x3801172E) (Lf 0x37C1172F))) (Nd (Nd (Lf 0x38011730) (Lf
  0x37C11731)) (Nd (Lf 0x38011732) (Lf 0x43C11733)))))).
Definition up_317 : trie N :=
  (Nd (Nd (Nd (Nd (Nd (Lf 0x33811734) (Lf 0x33811735)) (Nd (Lf 0x37011736) (Lf 0x44011737))) (Nd (Nd (Lf
  0x37811738) (Lf 0x37811739)) (Nd (Lf 0x3781173A) (Lf 0x14400000)))) (Nd (Nd (Nd (Lf 0x3381173B) (Lf
  0x3881173C)) (Nd (Lf 0x43C1173D) (Lf 0x3381173E))) (Nd (Nd (Lf 0x14400000) (Lf 0x14400000)) (Nd (Lf
  0x14400000) (Lf 0x14400000))))) (Nd (Nd (Nd (Nd (Lf 0x4202173F) (Lf 0x42021741)) (Nd (Lf 0x42021743) (Lf
  0x27000000))) (Nd (Nd (Lf 0x42021745) (Lf 0x14400000)) (Nd (Lf 0x42021747) (Lf 0x42021749)))) (Nd (Nd (Nd
  (Lf 0x4202174B) (Lf 0x4202174D)) (Nd (Lf 0x4202174F) (Lf 0x42021751))) (Nd (Nd (Lf 0x42021753) (Lf
  0x42021755)) (Nd (Lf 0x42021757) (Lf 0x42021759)))))).
Definition up_318 : trie N :=
  (Nd (Nd (Nd (Nd (Nd (Lf 0x25C1175B) (Lf 0x25C1175C)) (Nd (Lf 0x25C1175D) (Lf 0x25C1175E))) (Nd (Nd (Lf
  0x25C1175F) (Lf 0x25C11760)) (Nd (Lf 0x25C11761) (Lf 0x25C11762)))) (Nd (Nd (Nd (Lf 0x25C11763) (Lf
  0x25C11764)) (Nd (Lf 0x25C11765) (Lf 0x25C11766))) (Nd (Nd (Lf 0x25C11767) (Lf 0x25C11768)) (Nd (Lf
  0x25C11769) (Lf 0x25C1176A))))) (Nd (Nd (Nd (Nd (Lf 0x25C1176B) (Lf 0x25C1176C)) (Nd (Lf 0x25C1176D) (Lf
  0x25C1176E))) (Nd (Nd (Lf 0x25C1176F) (Lf 0x25C11770)) (Nd (Lf 0x25C11771) (Lf 0x25C11772)))) (Nd (Nd (Nd
  (Lf 0x25C11773) (Lf 0x25C11774)) (Nd (Lf 0x25C11775) (Lf 0x25C11776))) (Nd (Nd (Lf 0x25C11777) (Lf
  0x25C11778)) (Nd (Lf 0x25C11779) (Lf 0x25C1177A)))))).
Definition up_319 : trie N :=
  (Nd (Nd (Nd (Nd (Nd (Lf 0x25C1177B) (Lf 0x25C1177C)) (Nd (Lf 0x25C1177D) (Lf 0x25C1177E))) (Nd (Nd (Lf
  0x25C1177F) (Lf 0x25C11780)) (Nd (Lf 0x25C11781) (Lf 0x25C11782)))) (Nd (Nd (Nd (Lf 0x25C11783) (Lf
  0x25C11784)) (Nd (Lf 0x25C11785) (Lf 0x25C11786))) (Nd (Nd (Lf 0x25C11787) (Lf 0x25C11788)) (Nd (Lf
  0x25C11789) (Lf 0x25C1178A))))) (Nd (Nd (Nd (Nd (Lf 0x25C1178B) (Lf 0x25C1178C)) (Nd (Lf 0x25C1178D) (Lf
  0x25C1178E))) (Nd (Nd (Lf 0x25C1178F) (Lf 0x25C11790)) (Nd (Lf 0x25C11791) (Lf 0x25C11792)))) (Nd (Nd (Nd
  (Lf 0x25C11793) (Lf 0x25C11794)) (Nd (Lf 0x25C11795) (Lf 0x25C11796))) (Nd (Nd (Lf 0x25C11797) (Lf
  0x25C11798)) (Nd (Lf 0x25C11799) (Lf 0x25C1179A)))))).
Definition up_320 : trie N :=
  (Nd (Nd (Nd (Nd (Nd (Lf 0x25C1179B) (Lf 0x25C1179C)) (Nd (Lf 0x25C1179D) (Lf 0x25C1179E))) (Nd (Nd (Lf
  0x25C1179F) (Lf 0x25C117A0)) (Nd (Lf 0x25C117A1) (Lf 0x25C117A2)))) (Nd (Nd (Nd (Lf 0x25C117A3) (Lf
  0x25C117A4)) (Nd (Lf 0x25C117A5) (Lf 0x25C117A6))) (Nd (Nd (Lf 0x25C117A7) (Lf 0x25C117A8)) (Nd (Lf
  0x25C117A9) (Lf 0x25C117AA))))) (Nd (Nd (Nd (Nd (Lf 0x25C117AB) (Lf 0x25C117AC)) (Nd (Lf 0x25C117AD) (Lf
  0x25C117AE))) (Nd (Nd (Lf 0x25C117AF) (Lf 0x25C117B0)) (Nd (Lf 0x25C117B1) (Lf 0x25C117B2)))) (Nd (Nd (Nd
  (Lf 0x25C117B3) (Lf 0x25C117B4)) (Nd (Lf 0x25C117B5) (Lf 0x25C117B6))) (Nd (Nd (Lf 0x25C117B7) (Lf
  0x25C117B8)) (Nd (Lf 0x25C117B9) (Lf 0x25C117BA)))))).
Definition up_321 : trie N :=
  (Nd (Nd (Nd (Nd (Nd (Lf 0x25C117BB) (Lf 0x25C117BC)) (Nd (Lf 0x25C117BD) (Lf 0x25C117BE))) (Nd (Nd (Lf
  0x25C117BF) (Lf 0x25C117C0)) (Nd (Lf 0x25C117C1) (Lf 0x25C117C2)))) (Nd (Nd (Nd (Lf 0x25C117C3) (Lf
  0x25C117C4)) (Nd (Lf 0x25C117C5) (Lf 0x25C117C6))) (Nd (Nd (Lf 0x25C117C7) (Lf 0x25C117C8)) (Nd (Lf
  0x25C117C9) (Lf 0x25C117CA))))) (Nd (Nd (Nd (Nd (Lf 0x25C117CB) (Lf 0x25C117CC)) (Nd (Lf 0x25C117CD) (Lf
  0x25C117CE))) (Nd (Nd (Lf 0x25C117CF) (Lf 0x420217D0)) (Nd (Lf 0x420217D2) (Lf 0x420217D4)))) (Nd (Nd (Nd
  (Lf 0x420217D6) (Lf 0x420217D8)) (Nd (Lf 0x420217DA) (Lf 0x420217DC))) (Nd (Nd (Lf 0x420217DE) (Lf
  0x14400000)) (Nd (Lf 0x14400000) (Lf 0x44400000)))))).
Definition up_322 : trie N :=
  (Nd (Nd (Nd (Nd (Nd (Lf 0x14400000) (Lf 0x34C117E0)) (Nd (Lf 0x368117E1) (Lf 0x43C117E2))) (Nd (Nd (Lf
  0x388117E3) (Lf 0x43C117E4)) (Nd (Lf 0x338117E5) (Lf 0x448117E6)))) (Nd (Nd (Nd (Lf 0x37C117E7) (Lf
  0x380117E8)) (Nd (Lf 0x338117E9) (Lf 0x370117EA))) (Nd (Nd (Lf 0x438117EB) (Lf 0x440117EC)) (Nd (Lf
  0x438117ED) (Lf 0x44C117EE))))) (Nd (Nd (Nd (Nd (Lf 0x450117EF) (Lf 0x454117F0)) (Nd (Lf 0x454117F1) (Lf
  0x454117F2))) (Nd (Nd (Lf 0x454117F3) (Lf 0x454117F4)) (Nd (Lf 0x454117F5) (Lf 0x454117F6)))) (Nd (Nd (Nd
  (Lf 0x454117F7) (Lf 0x454117F8)) (Nd (Lf 0x438117F9) (Lf 0x34C117FA))) (Nd (Nd (Lf 0x378117FB) (Lf
  0x378117FC)) (Nd (Lf 0x378117FD) (Lf 0x34C117FE)))))).
Definition up_323 : trie N :=
  (Nd (Nd (Nd (Nd (Nd (Lf 0x338117FF) (Lf 0x45811800)) (Nd (Lf 0x45811801) (Lf 0x45811802))) (Nd (Nd (Lf
  0x45811803) (Lf 0x45811804)) (Nd (Lf 0x45811805) (Lf 0x45C11806)))) (Nd (Nd (Nd (Lf 0x45C11807) (Lf
  0x45C11808)) (Nd (Lf 0x45C11809) (Lf 0x45C1180A))) (Nd (Nd (Lf 0x45C1180B) (Lf 0x45C1180C)) (Nd (Lf
  0x45C1180D) (Lf 0x45C1180E))))) (Nd (Nd (Nd (Nd (Lf 0x45C1180F) (Lf 0x45C11810)) (Nd (Lf 0x45C11811) (Lf
  0x45C11812))) (Nd (Nd (Lf 0x45C11813) (Lf 0x45C11814)) (Nd (Lf 0x45C11815) (Lf 0x45C11816)))) (Nd (Nd (Nd
  (Lf 0x45C11817) (Lf 0x45C11818)) (Nd (Lf 0x45C11819) (Lf 0x37C1181A))) (Nd (Nd (Lf 0x3381181B) (Lf
  0x3801181C)) (Nd (Lf 0x781181D) (Lf 0x42C1181E)))))).
Definition up_324 : trie N :=
  (Nd (Nd (Nd (Nd (Nd (Lf 0x781181F) (Lf 0x46011820)) (Nd (Lf 0x46011821) (Lf 0x46011822))) (Nd (Nd (Lf
  0x46011823) (Lf 0x46011824)) (Nd (Lf 0x46011825) (Lf 0x46411826)))) (Nd (Nd (Nd (Lf 0x46411827) (Lf
  0x46411828)) (Nd (Lf 0x46411829) (Lf 0x4641182A))) (Nd (Nd (Lf 0x4641182B) (Lf 0x4641182C)) (Nd (Lf
  0x4641182D) (Lf 0x4641182E))))) (Nd (Nd (Nd (Nd (Lf 0x4641182F) (Lf 0x46411830)) (Nd (Lf 0x46411831) (Lf
  0x46411832))) (Nd (Nd (Lf 0x46411833) (Lf 0x46411834)) (Nd (Lf 0x46411835) (Lf 0x46411836)))) (Nd (Nd (Nd
  (Lf 0x46411837) (Lf 0x46411838)) (Nd (Lf 0x46411839) (Lf 0x37C1183A))) (Nd (Nd (Lf 0x3781183B) (Lf
  0x3801183C)) (Nd (Lf 0x3781183D) (Lf 0x37C1183E)))))).
Definition up_325 : trie N :=
  (Nd (Nd (Nd (Nd (Nd (Lf 0x3801183F) (Lf 0x34C11840)) (Nd (Lf 0x43011841) (Lf 0x43411842))) (Nd (Nd (Lf
  0x34C11843) (Lf 0x42C11844)) (Nd (Lf 0x3FC11845) (Lf 0x3FC11846)))) (Nd (Nd (Nd (Lf 0x3FC11847) (Lf
  0x3FC11848)) (Nd (Lf 0x3FC11849) (Lf 0x3FC1184A))) (Nd (Nd (Lf 0x3FC1184B) (Lf 0x3FC1184C)) (Nd (Lf
  0x3FC1184D) (Lf 0x3FC1184E))))) (Nd (Nd (Nd (Nd (Lf 0x1A41184F) (Lf 0x3FC11850)) (Nd (Lf 0x3FC11851) (Lf
  0x3FC11852))) (Nd (Nd (Lf 0x3FC11853) (Lf 0x3FC11854)) (Nd (Lf 0x3FC11855) (Lf 0x3FC11856)))) (Nd (Nd (Nd
  (Lf 0x3FC11857) (Lf 0x3FC11858)) (Nd (Lf 0x3FC11859) (Lf 0x3FC1185A))) (Nd (Nd (Lf 0x3FC1185B) (Lf
  0x3FC1185C)) (Nd (Lf 0x3FC1185D) (Lf 0x3FC1185E)))))).
Definition up_326 : trie N :=
  (Nd (Nd (Nd (Nd (Nd (Lf 0x3FC1185F) (Lf 0x3FC11860)) (Nd (Lf 0x3FC11861) (Lf 0x3FC11862))) (Nd (Nd (Lf
  0x3FC11863) (Lf 0x3FC11864)) (Nd (Lf 0x3FC11865) (Lf 0x3FC11866)))) (Nd (Nd (Nd (Lf 0x3FC11867) (Lf
  0x3FC11868)) (Nd (Lf 0x3FC11869) (Lf 0x3FC1186A))) (Nd (Nd (Lf 0x3FC1186B) (Lf 0x3FC1186C)) (Nd (Lf
  0x3FC1186D) (Lf 0x3FC1186E))))) (Nd (Nd (Nd (Nd (Lf 0x3FC1186F) (Lf 0x3FC11870)) (Nd (Lf 0x3FC11871) (Lf
  0x3FC11872))) (Nd (Nd (Lf 0x3FC11873) (Lf 0x3FC11874)) (Nd (Lf 0x3FC11875) (Lf 0x3FC11876)))) (Nd (Nd (Nd
  (Lf 0x3FC11877) (Lf 0x3FC11878)) (Nd (Lf 0x3FC11879) (Lf 0x3FC1187A))) (Nd (Nd (Lf 0x3FC1187B) (Lf
  0x3FC1187C)) (Nd (Lf 0x1A41187D) (Lf 0x1A41187E)))))).
Definition up_327 : trie N :=
  (Nd (Nd (Nd (Nd (Nd (Lf 0x2941187F) (Lf 0x29411880)) (Nd (Lf 0x29411881) (Lf 0x29411882))) (Nd (Nd (Lf
  0x29411883) (Lf 0x29411884)) (Nd (Lf 0x29411885) (Lf 0x29411886)))) (Nd (Nd (Nd (Lf 0x29411887) (Lf
  0x29411888)) (Nd (Lf 0x29411889) (Lf 0x2941188A))) (Nd (Nd (Lf 0x2941188B) (Lf 0x2941188C)) (Nd (Lf
  0x2941188D) (Lf 0x2941188E))))) (Nd (Nd (Nd (Nd (Lf 0x2941188F) (Lf 0x29411890)) (Nd (Lf 0x29411891) (Lf
  0x29411892))) (Nd (Nd (Lf 0x29411893) (Lf 0x29411894)) (Nd (Lf 0x29411895) (Lf 0x29411896)))) (Nd (Nd (Nd
  (Lf 0x29411897) (Lf 0x29411898)) (Nd (Lf 0x29411899) (Lf 0x2941189A))) (Nd (Nd (Lf 0x2941189B) (Lf
  0x2941189C)) (Nd (Lf 0x2941189D) (Lf 0x14400000)))))).
Definition up_328 : trie N :=
  (Nd (Nd (Nd (Nd (Nd (Lf 0x14400000) (Lf 0x14400000)) (Nd (Lf 0x2941189E) (Lf 0x2941189F))) (Nd (Nd (Lf
  0x294118A0) (Lf 0x294118A1)) (Nd (Lf 0x294118A2) (Lf 0x294118A3)))) (Nd (Nd (Nd (Lf 0x14400000) (Lf
  0x14400000)) (Nd (Lf 0x294118A4) (Lf 0x294118A5))) (Nd (Nd (Lf 0x294118A6) (Lf 0x294118A7)) (Nd (Lf
  0x294118A8) (Lf 0x294118A9))))) (Nd (Nd (Nd (Nd (Lf 0x14400000) (Lf 0x14400000)) (Nd (Lf 0x294118AA) (Lf
  0x294118AB))) (Nd (Nd (Lf 0x294118AC) (Lf 0x294118AD)) (Nd (Lf 0x294118AE) (Lf 0x294118AF)))) (Nd (Nd (Nd
  (Lf 0x14400000) (Lf 0x14400000)) (Nd (Lf 0x294118B0) (Lf 0x294118B1))) (Nd (Nd (Lf 0x294118B2) (Lf
  0x14400000)) (Nd (Lf 0x14400000) (Lf 0x14400000)))))).
Definition up_329 : trie N :=
  (Nd (Nd (Nd (Nd (Nd (Lf 0x388118B3) (Lf 0x388118B4)) (Nd (Lf 0x378118B5) (Lf 0x78118B6))) (Nd (Nd (Lf
  0x38C118B7) (Lf 0x388118B8)) (Nd (Lf 0x388118B9) (Lf 0x14400000)))) (Nd (Nd (Nd (Lf 0x38C118BA) (Lf
  0x378118BB)) (Nd (Lf 0x378118BC) (Lf 0x378118BD))) (Nd (Nd (Lf 0x378118BE) (Lf 0x38C118BF)) (Nd (Lf
  0x38C118C0) (Lf 0x14400000))))) (Nd (Nd (Nd (Nd (Lf 0x14400000) (Lf 0x14400000)) (Nd (Lf 0x14400000) (Lf
  0x14400000))) (Nd (Nd (Lf 0x14400000) (Lf 0x14400000)) (Nd (Lf 0x14400000) (Lf 0x14400000)))) (Nd (Nd (Nd
  (Lf 0x14400000) (Lf 0x23800000)) (Nd (Lf 0x23800000) (Lf 0x23800000))) (Nd (Nd (Lf 0x7400000) (Lf
  0x7400000)) (Nd (Lf 0x14400000) (Lf 0x14400000)))))).
Definition unicode_pages : trie (trie N) :=
  (Nd (Nd (Nd (Nd (Nd (Nd (Nd (Nd (Nd (Nd (Nd (Lf up_0) (Lf up_1)) (Nd (Lf up_2) (Lf up_3))) (Nd (Nd (Lf up_4)
  (Lf up_5)) (Nd (Lf up_6) (Lf up_7)))) (Nd (Nd (Nd (Lf up_8) (Lf up_9)) (Nd (Lf up_10) (Lf up_11))) (Nd (Nd
  (Lf up_12) (Lf up_13)) (Nd (Lf up_14) (Lf up_15))))) (Nd (Nd (Nd (Nd (Lf up_16) (Lf up_17)) (Nd (Lf up_18)
  (Lf up_19))) (Nd (Nd (Lf up_20) (Lf up_21)) (Nd (Lf up_22) (Lf up_23)))) (Nd (Nd (Nd (Lf up_24) (Lf up_24))
  (Nd (Lf up_25) (Lf up_26))) (Nd (Nd (Lf up_27) (Lf up_28)) (Nd (Lf up_29) (Lf up_30)))))) (Nd (Nd (Nd (Nd
  (Nd (Lf up_31) (Lf up_32)) (Nd (Lf up_33) (Lf up_34))) (Nd (Nd (Lf up_35) (Lf up_36)) (Nd (Lf up_37) (Lf
  up_38)))) (Nd (Nd (Nd (Lf up_39) (Lf up_40)) (Nd (Lf up_41) (Lf up_42))) (Nd (Nd (Lf up_43) (Lf up_44)) (Nd
  (Lf up_45) (Lf up_46))))) (Nd (Nd (Nd (Nd (Lf up_47) (Lf up_48)) (Nd (Lf up_49) (Lf up_50))) (Nd (Nd (Lf
  up_51) (Lf up_51)) (Nd (Lf up_52) (Lf up_53)))) (Nd (Nd (Nd (Lf up_54) (Lf up_55)) (Nd (Lf up_56) (Lf
  up_57))) (Nd (Nd (Lf up_58) (Lf up_59)) (Nd (Lf up_57) (Lf up_57))))))) (Nd (Nd (Nd (Nd (Nd (Nd (Lf up_57)
  (Lf up_57)) (Nd (Lf up_57) (Lf up_57))) (Nd (Nd (Lf up_57) (Lf up_57)) (Nd (Lf up_57) (Lf up_57)))) (Nd (Nd
  (Nd (Lf up_60) (Lf up_61)) (Nd (Lf up_62) (Lf up_63))) (Nd (Nd (Lf up_64) (Lf up_65)) (Nd (Lf up_66) (Lf
  up_67))))) (Nd (Nd (Nd (Nd (Lf up_68) (Lf up_69)) (Nd (Lf up_70) (Lf up_71))) (Nd (Nd (Lf up_72) (Lf up_73))
  (Nd (Lf up_74) (Lf up_75)))) (Nd (Nd (Nd (Lf up_64) (Lf up_76)) (Nd (Lf up_77) (Lf up_78))) (Nd (Nd (Lf
  up_79) (Lf up_80)) (Nd (Lf up_81) (Lf up_82)))))) (Nd (Nd (Nd (Nd (Nd (Lf up_83) (Lf up_84)) (Nd (Lf up_85)
  (Lf up_86))) (Nd (Nd (Lf up_87) (Lf up_88)) (Nd (Lf up_89) (Lf up_86)))) (Nd (Nd (Nd (Lf up_87) (Lf up_90))
  (Nd (Lf up_91) (Lf up_86))) (Nd (Nd (Lf up_92) (Lf up_93)) (Nd (Lf up_94) (Lf up_95))))) (Nd (Nd (Nd (Nd (Lf
  up_96) (Lf up_97)) (Nd (Lf up_98) (Lf up_57))) (Nd (Nd (Lf up_99) (Lf up_100)) (Nd (Lf up_101) (Lf up_57))))
  (Nd (Nd (Nd (Lf up_102) (Lf up_103)) (Nd (Lf up_104) (Lf up_105))) (Nd (Nd (Lf up_106) (Lf up_107)) (Nd (Lf
  up_108) (Lf up_57)))))))) (Nd (Nd (Nd (Nd (Nd (Nd (Nd (Lf up_109) (Lf up_110)) (Nd (Lf up_111) (Lf up_57)))
  (Nd (Nd (Lf up_57) (Lf up_112)) (Nd (Lf up_113) (Lf up_114)))) (Nd (Nd (Nd (Lf up_115) (Lf up_115)) (Nd (Lf
  up_116) (Lf up_117))) (Nd (Nd (Lf up_117) (Lf up_118)) (Nd (Lf up_119) (Lf up_120))))) (Nd (Nd (Nd (Nd (Lf
  up_121) (Lf up_109)) (Nd (Lf up_122) (Lf up_109))) (Nd (Nd (Lf up_123) (Lf up_124)) (Nd (Lf up_125) (Lf
  up_126)))) (Nd (Nd (Nd (Lf up_124) (Lf up_109)) (Nd (Lf up_127) (Lf up_128))) (Nd (Nd (Lf up_57) (Lf
  up_109)) (Nd (Lf up_109) (Lf up_129)))))) (Nd (Nd (Nd (Nd (Nd (Lf up_96) (Lf up_109)) (Nd (Lf up_109) (Lf
  up_109))) (Nd (Nd (Lf up_109) (Lf up_109)) (Nd (Lf up_109) (Lf up_109)))) (Nd (Nd (Nd (Lf up_109) (Lf
  up_109)) (Nd (Lf up_109) (Lf up_109))) (Nd (Nd (Lf up_109) (Lf up_109)) (Nd (Lf up_109) (Lf up_109))))) (Nd
  (Nd (Nd (Nd (Lf up_109) (Lf up_109)) (Nd (Lf up_109) (Lf up_130))) (Nd (Nd (Lf up_131) (Lf up_109)) (Nd (Lf
  up_109) (Lf up_132)))) (Nd (Nd (Nd (Lf up_133) (Lf up_134)) (Nd (Lf up_135) (Lf up_136))) (Nd (Nd (Lf
  up_109) (Lf up_137)) (Nd (Lf up_138) (Lf up_139))))))) (Nd (Nd (Nd (Nd (Nd (Nd (Lf up_140) (Lf up_109)) (Nd
  (Lf up_141) (Lf up_142))) (Nd (Nd (Lf up_109) (Lf up_143)) (Nd (Lf up_57) (Lf up_57)))) (Nd (Nd (Nd (Lf
  up_144) (Lf up_145)) (Nd (Lf up_146) (Lf up_147))) (Nd (Nd (Lf up_57) (Lf up_57)) (Nd (Lf up_57) (Lf
  up_148))))) (Nd (Nd (Nd (Nd (Lf up_57) (Lf up_57)) (Nd (Lf up_57) (Lf up_57))) (Nd (Nd (Lf up_57) (Lf
  up_57)) (Nd (Lf up_57) (Lf up_57)))) (Nd (Nd (Nd (Lf up_57) (Lf up_57)) (Nd (Lf up_57) (Lf up_57))) (Nd (Nd
  (Lf up_57) (Lf up_57)) (Nd (Lf up_57) (Lf up_57)))))) (Nd (Nd (Nd (Nd (Nd (Lf up_57) (Lf up_57)) (Nd (Lf
  up_57) (Lf up_57))) (Nd (Nd (Lf up_57) (Lf up_57)) (Nd (Lf up_57) (Lf up_57)))) (Nd (Nd (Nd (Lf up_149) (Lf
  up_150)) (Nd (Lf up_151) (Lf up_152))) (Nd (Nd (Lf up_57) (Lf up_57)) (Nd (Lf up_57) (Lf up_57))))) (Nd (Nd
  (Nd (Nd (Lf up_153) (Lf up_154)) (Nd (Lf up_155) (Lf up_156))) (Nd (Nd (Lf up_157) (Lf up_158)) (Nd (Lf
  up_159) (Lf up_160)))) (Nd (Nd (Nd (Lf up_161) (Lf up_162)) (Nd (Lf up_163) (Lf up_164))) (Nd (Nd (Lf
  up_165) (Lf up_166)) (Nd (Lf up_167) (Lf up_168))))))))) (Nd (Nd (Nd (Nd (Nd (Nd (Nd (Nd (Lf up_169) (Lf
  up_170)) (Nd (Lf up_171) (Lf up_172))) (Nd (Nd (Lf up_173) (Lf up_174)) (Nd (Lf up_175) (Lf up_176)))) (Nd
  (Nd (Nd (Lf up_177) (Lf up_178)) (Nd (Lf up_179) (Lf up_180))) (Nd (Nd (Lf up_181) (Lf up_182)) (Nd (Lf
  up_183) (Lf up_184))))) (Nd (Nd (Nd (Nd (Lf up_185) (Lf up_186)) (Nd (Lf up_187) (Lf up_188))) (Nd (Nd (Lf
  up_189) (Lf up_190)) (Nd (Lf up_191) (Lf up_192)))) (Nd (Nd (Nd (Lf up_193) (Lf up_194)) (Nd (Lf up_195) (Lf
  up_196))) (Nd (Nd (Lf up_197) (Lf up_198)) (Nd (Lf up_199) (Lf up_57)))))) (Nd (Nd (Nd (Nd (Nd (Lf up_148)
  (Lf up_200)) (Nd (Lf up_201) (Lf up_202))) (Nd (Nd (Lf up_203) (Lf up_204)) (Nd (Lf up_205) (Lf up_206))))
  (Nd (Nd (Nd (Lf up_148) (Lf up_148)) (Nd (Lf up_148) (Lf up_148))) (Nd (Nd (Lf up_148) (Lf up_207)) (Nd (Lf
  up_208) (Lf up_209))))) (Nd (Nd (Nd (Nd (Lf up_210) (Lf up_148)) (Nd (Lf up_148) (Lf up_211))) (Nd (Nd (Lf
  up_212) (Lf up_213)) (Nd (Lf up_57) (Lf up_57)))) (Nd (Nd (Nd (Lf up_214) (Lf up_215)) (Nd (Lf up_216) (Lf
  up_217))) (Nd (Nd (Lf up_218) (Lf up_219)) (Nd (Lf up_220) (Lf up_221))))))) (Nd (Nd (Nd (Nd (Nd (Nd (Lf
  up_148) (Lf up_148)) (Nd (Lf up_148) (Lf up_148))) (Nd (Nd (Lf up_148) (Lf up_148)) (Nd (Lf up_148) (Lf
  up_148)))) (Nd (Nd (Nd (Lf up_191) (Lf up_191)) (Nd (Lf up_191) (Lf up_191))) (Nd (Nd (Lf up_222) (Lf
  up_191)) (Nd (Lf up_223) (Lf up_224))))) (Nd (Nd (Nd (Nd (Lf up_225) (Lf up_191)) (Nd (Lf up_191) (Lf
  up_226))) (Nd (Nd (Lf up_191) (Lf up_191)) (Nd (Lf up_227) (Lf up_191)))) (Nd (Nd (Nd (Lf up_228) (Lf
  up_57)) (Nd (Lf up_57) (Lf up_57))) (Nd (Nd (Lf up_57) (Lf up_57)) (Nd (Lf up_57) (Lf up_57)))))) (Nd (Nd
  (Nd (Nd (Nd (Lf up_57) (Lf up_57)) (Nd (Lf up_57) (Lf up_57))) (Nd (Nd (Lf up_57) (Lf up_57)) (Nd (Lf up_57)
  (Lf up_57)))) (Nd (Nd (Nd (Lf up_57) (Lf up_57)) (Nd (Lf up_57) (Lf up_57))) (Nd (Nd (Lf up_57) (Lf up_57))
  (Nd (Lf up_57) (Lf up_57))))) (Nd (Nd (Nd (Nd (Lf up_57) (Lf up_57)) (Nd (Lf up_57) (Lf up_57))) (Nd (Nd (Lf
  up_229) (Lf up_148)) (Nd (Lf up_148) (Lf up_230)))) (Nd (Nd (Nd (Lf up_231) (Lf up_232)) (Nd (Lf up_233) (Lf
  up_234))) (Nd (Nd (Lf up_235) (Lf up_236)) (Nd (Lf up_237) (Lf up_238)))))))) (Nd (Nd (Nd (Nd (Nd (Nd (Nd
  (Lf up_239) (Lf up_240)) (Nd (Lf up_241) (Lf up_242))) (Nd (Nd (Lf up_243) (Lf up_244)) (Nd (Lf up_245) (Lf
  up_246)))) (Nd (Nd (Nd (Lf up_247) (Lf up_248)) (Nd (Lf up_249) (Lf up_250))) (Nd (Nd (Lf up_251) (Lf
  up_142)) (Nd (Lf up_57) (Lf up_252))))) (Nd (Nd (Nd (Nd (Lf up_253) (Lf up_254)) (Nd (Lf up_255) (Lf
  up_256))) (Nd (Nd (Lf up_257) (Lf up_258)) (Nd (Lf up_259) (Lf up_260)))) (Nd (Nd (Nd (Lf up_261) (Lf
  up_262)) (Nd (Lf up_263) (Lf up_264))) (Nd (Nd (Lf up_265) (Lf up_266)) (Nd (Lf up_267) (Lf up_268)))))) (Nd
  (Nd (Nd (Nd (Nd (Lf up_269) (Lf up_269)) (Nd (Lf up_269) (Lf up_269))) (Nd (Nd (Lf up_269) (Lf up_269)) (Nd
  (Lf up_269) (Lf up_269)))) (Nd (Nd (Nd (Lf up_269) (Lf up_269)) (Nd (Lf up_269) (Lf up_269))) (Nd (Nd (Lf
  up_269) (Lf up_269)) (Nd (Lf up_269) (Lf up_269))))) (Nd (Nd (Nd (Nd (Lf up_269) (Lf up_269)) (Nd (Lf
  up_269) (Lf up_269))) (Nd (Nd (Lf up_269) (Lf up_269)) (Nd (Lf up_269) (Lf up_269)))) (Nd (Nd (Nd (Lf
  up_269) (Lf up_269)) (Nd (Lf up_269) (Lf up_269))) (Nd (Nd (Lf up_269) (Lf up_269)) (Nd (Lf up_269) (Lf
  up_269))))))) (Nd (Nd (Nd (Nd (Nd (Nd (Lf up_269) (Lf up_269)) (Nd (Lf up_269) (Lf up_269))) (Nd (Nd (Lf
  up_269) (Lf up_269)) (Nd (Lf up_269) (Lf up_269)))) (Nd (Nd (Nd (Lf up_269) (Lf up_269)) (Nd (Lf up_269) (Lf
  up_269))) (Nd (Nd (Lf up_269) (Lf up_269)) (Nd (Lf up_269) (Lf up_269))))) (Nd (Nd (Nd (Nd (Lf up_269) (Lf
  up_269)) (Nd (Lf up_269) (Lf up_269))) (Nd (Nd (Lf up_269) (Lf up_269)) (Nd (Lf up_269) (Lf up_269)))) (Nd
  (Nd (Nd (Lf up_269) (Lf up_269)) (Nd (Lf up_269) (Lf up_269))) (Nd (Nd (Lf up_269) (Lf up_269)) (Nd (Lf
  up_269) (Lf up_269)))))) (Nd (Nd (Nd (Nd (Nd (Lf up_269) (Lf up_269)) (Nd (Lf up_269) (Lf up_269))) (Nd (Nd
  (Lf up_269) (Lf up_269)) (Nd (Lf up_269) (Lf up_269)))) (Nd (Nd (Nd (Lf up_269) (Lf up_269)) (Nd (Lf up_269)
  (Lf up_269))) (Nd (Nd (Lf up_269) (Lf up_269)) (Nd (Lf up_269) (Lf up_269))))) (Nd (Nd (Nd (Nd (Lf up_269)
  (Lf up_269)) (Nd (Lf up_269) (Lf up_269))) (Nd (Nd (Lf up_269) (Lf up_269)) (Nd (Lf up_269) (Lf up_269))))
  (Nd (Nd (Nd (Lf up_269) (Lf up_269)) (Nd (Lf up_269) (Lf up_269))) (Nd (Nd (Lf up_269) (Lf up_269)) (Nd (Lf
  up_269) (Lf up_269)))))))))) (Nd (Nd (Nd (Nd (Nd (Nd (Nd (Nd (Nd (Lf up_269) (Lf up_269)) (Nd (Lf up_269)
  (Lf up_269))) (Nd (Nd (Lf up_269) (Lf up_269)) (Nd (Lf up_269) (Lf up_269)))) (Nd (Nd (Nd (Lf up_269) (Lf
  up_269)) (Nd (Lf up_269) (Lf up_269))) (Nd (Nd (Lf up_269) (Lf up_269)) (Nd (Lf up_269) (Lf up_269))))) (Nd
  (Nd (Nd (Nd (Lf up_269) (Lf up_269)) (Nd (Lf up_269) (Lf up_269))) (Nd (Nd (Lf up_269) (Lf up_269)) (Nd (Lf
  up_269) (Lf up_269)))) (Nd (Nd (Nd (Lf up_269) (Lf up_269)) (Nd (Lf up_269) (Lf up_269))) (Nd (Nd (Lf
  up_269) (Lf up_269)) (Nd (Lf up_269) (Lf up_269)))))) (Nd (Nd (Nd (Nd (Nd (Lf up_269) (Lf up_269)) (Nd (Lf
  up_269) (Lf up_269))) (Nd (Nd (Lf up_269) (Lf up_269)) (Nd (Lf up_269) (Lf up_269)))) (Nd (Nd (Nd (Lf
  up_269) (Lf up_269)) (Nd (Lf up_269) (Lf up_269))) (Nd (Nd (Lf up_269) (Lf up_269)) (Nd (Lf up_269) (Lf
  up_269))))) (Nd (Nd (Nd (Nd (Lf up_269) (Lf up_269)) (Nd (Lf up_269) (Lf up_269))) (Nd (Nd (Lf up_269) (Lf
  up_269)) (Nd (Lf up_269) (Lf up_269)))) (Nd (Nd (Nd (Lf up_269) (Lf up_269)) (Nd (Lf up_269) (Lf up_269)))
  (Nd (Nd (Lf up_269) (Lf up_269)) (Nd (Lf up_269) (Lf up_269))))))) (Nd (Nd (Nd (Nd (Nd (Nd (Lf up_269) (Lf
  up_269)) (Nd (Lf up_269) (Lf up_269))) (Nd (Nd (Lf up_269) (Lf up_269)) (Nd (Lf up_269) (Lf up_269)))) (Nd
  (Nd (Nd (Lf up_269) (Lf up_269)) (Nd (Lf up_269) (Lf up_269))) (Nd (Nd (Lf up_269) (Lf up_269)) (Nd (Lf
  up_269) (Lf up_269))))) (Nd (Nd (Nd (Nd (Lf up_269) (Lf up_269)) (Nd (Lf up_269) (Lf up_269))) (Nd (Nd (Lf
  up_269) (Lf up_269)) (Nd (Lf up_269) (Lf up_269)))) (Nd (Nd (Nd (Lf up_269) (Lf up_269)) (Nd (Lf up_269) (Lf
  up_269))) (Nd (Nd (Lf up_269) (Lf up_269)) (Nd (Lf up_269) (Lf up_269)))))) (Nd (Nd (Nd (Nd (Nd (Lf up_269)
  (Lf up_269)) (Nd (Lf up_269) (Lf up_269))) (Nd (Nd (Lf up_269) (Lf up_269)) (Nd (Lf up_269) (Lf up_269))))
  (Nd (Nd (Nd (Lf up_269) (Lf up_269)) (Nd (Lf up_269) (Lf up_269))) (Nd (Nd (Lf up_269) (Lf up_270)) (Nd (Lf
  up_148) (Lf up_148))))) (Nd (Nd (Nd (Nd (Lf up_269) (Lf up_269)) (Nd (Lf up_269) (Lf up_269))) (Nd (Nd (Lf
  up_269) (Lf up_269)) (Nd (Lf up_269) (Lf up_269)))) (Nd (Nd (Nd (Lf up_269) (Lf up_269)) (Nd (Lf up_269) (Lf
  up_269))) (Nd (Nd (Lf up_269) (Lf up_269)) (Nd (Lf up_269) (Lf up_269)))))))) (Nd (Nd (Nd (Nd (Nd (Nd (Nd
  (Lf up_269) (Lf up_269)) (Nd (Lf up_269) (Lf up_269))) (Nd (Nd (Lf up_269) (Lf up_269)) (Nd (Lf up_269) (Lf
  up_269)))) (Nd (Nd (Nd (Lf up_269) (Lf up_269)) (Nd (Lf up_269) (Lf up_269))) (Nd (Nd (Lf up_269) (Lf
  up_269)) (Nd (Lf up_269) (Lf up_269))))) (Nd (Nd (Nd (Nd (Lf up_269) (Lf up_269)) (Nd (Lf up_269) (Lf
  up_269))) (Nd (Nd (Lf up_269) (Lf up_269)) (Nd (Lf up_269) (Lf up_269)))) (Nd (Nd (Nd (Lf up_269) (Lf
  up_269)) (Nd (Lf up_269) (Lf up_269))) (Nd (Nd (Lf up_269) (Lf up_269)) (Nd (Lf up_269) (Lf up_269)))))) (Nd
  (Nd (Nd (Nd (Nd (Lf up_269) (Lf up_269)) (Nd (Lf up_269) (Lf up_269))) (Nd (Nd (Lf up_269) (Lf up_269)) (Nd
  (Lf up_269) (Lf up_269)))) (Nd (Nd (Nd (Lf up_269) (Lf up_269)) (Nd (Lf up_269) (Lf up_269))) (Nd (Nd (Lf
  up_269) (Lf up_269)) (Nd (Lf up_269) (Lf up_269))))) (Nd (Nd (Nd (Nd (Lf up_269) (Lf up_269)) (Nd (Lf
  up_269) (Lf up_269))) (Nd (Nd (Lf up_269) (Lf up_269)) (Nd (Lf up_269) (Lf up_269)))) (Nd (Nd (Nd (Lf
  up_269) (Lf up_269)) (Nd (Lf up_269) (Lf up_269))) (Nd (Nd (Lf up_269) (Lf up_269)) (Nd (Lf up_269) (Lf
  up_269))))))) (Nd (Nd (Nd (Nd (Nd (Nd (Lf up_269) (Lf up_269)) (Nd (Lf up_269) (Lf up_269))) (Nd (Nd (Lf
  up_269) (Lf up_269)) (Nd (Lf up_269) (Lf up_269)))) (Nd (Nd (Nd (Lf up_269) (Lf up_269)) (Nd (Lf up_269) (Lf
  up_269))) (Nd (Nd (Lf up_269) (Lf up_269)) (Nd (Lf up_269) (Lf up_269))))) (Nd (Nd (Nd (Nd (Lf up_269) (Lf
  up_269)) (Nd (Lf up_269) (Lf up_269))) (Nd (Nd (Lf up_269) (Lf up_269)) (Nd (Lf up_269) (Lf up_269)))) (Nd
  (Nd (Nd (Lf up_269) (Lf up_269)) (Nd (Lf up_269) (Lf up_269))) (Nd (Nd (Lf up_269) (Lf up_269)) (Nd (Lf
  up_269) (Lf up_269)))))) (Nd (Nd (Nd (Nd (Nd (Lf up_269) (Lf up_269)) (Nd (Lf up_269) (Lf up_269))) (Nd (Nd
  (Lf up_269) (Lf up_269)) (Nd (Lf up_269) (Lf up_269)))) (Nd (Nd (Nd (Lf up_269) (Lf up_269)) (Nd (Lf up_269)
  (Lf up_269))) (Nd (Nd (Lf up_269) (Lf up_269)) (Nd (Lf up_269) (Lf up_269))))) (Nd (Nd (Nd (Nd (Lf up_269)
  (Lf up_269)) (Nd (Lf up_269) (Lf up_269))) (Nd (Nd (Lf up_269) (Lf up_269)) (Nd (Lf up_269) (Lf up_269))))
  (Nd (Nd (Nd (Lf up_269) (Lf up_269)) (Nd (Lf up_269) (Lf up_269))) (Nd (Nd (Lf up_269) (Lf up_269)) (Nd (Lf
  up_269) (Lf up_269))))))))) (Nd (Nd (Nd (Nd (Nd (Nd (Nd (Nd (Lf up_269) (Lf up_269)) (Nd (Lf up_269) (Lf
  up_269))) (Nd (Nd (Lf up_269) (Lf up_269)) (Nd (Lf up_269) (Lf up_269)))) (Nd (Nd (Nd (Lf up_269) (Lf
  up_269)) (Nd (Lf up_269) (Lf up_269))) (Nd (Nd (Lf up_269) (Lf up_269)) (Nd (Lf up_269) (Lf up_269))))) (Nd
  (Nd (Nd (Nd (Lf up_269) (Lf up_269)) (Nd (Lf up_269) (Lf up_269))) (Nd (Nd (Lf up_269) (Lf up_269)) (Nd (Lf
  up_269) (Lf up_269)))) (Nd (Nd (Nd (Lf up_269) (Lf up_269)) (Nd (Lf up_269) (Lf up_269))) (Nd (Nd (Lf
  up_269) (Lf up_269)) (Nd (Lf up_269) (Lf up_269)))))) (Nd (Nd (Nd (Nd (Nd (Lf up_269) (Lf up_269)) (Nd (Lf
  up_269) (Lf up_269))) (Nd (Nd (Lf up_269) (Lf up_269)) (Nd (Lf up_269) (Lf up_269)))) (Nd (Nd (Nd (Lf
  up_269) (Lf up_269)) (Nd (Lf up_269) (Lf up_269))) (Nd (Nd (Lf up_269) (Lf up_269)) (Nd (Lf up_269) (Lf
  up_269))))) (Nd (Nd (Nd (Nd (Lf up_269) (Lf up_269)) (Nd (Lf up_269) (Lf up_269))) (Nd (Nd (Lf up_269) (Lf
  up_269)) (Nd (Lf up_269) (Lf up_269)))) (Nd (Nd (Nd (Lf up_269) (Lf up_269)) (Nd (Lf up_269) (Lf up_269)))
  (Nd (Nd (Lf up_269) (Lf up_269)) (Nd (Lf up_269) (Lf up_269))))))) (Nd (Nd (Nd (Nd (Nd (Nd (Lf up_269) (Lf
  up_269)) (Nd (Lf up_269) (Lf up_269))) (Nd (Nd (Lf up_269) (Lf up_269)) (Nd (Lf up_269) (Lf up_269)))) (Nd
  (Nd (Nd (Lf up_269) (Lf up_269)) (Nd (Lf up_269) (Lf up_269))) (Nd (Nd (Lf up_269) (Lf up_269)) (Nd (Lf
  up_269) (Lf up_269))))) (Nd (Nd (Nd (Nd (Lf up_269) (Lf up_269)) (Nd (Lf up_269) (Lf up_269))) (Nd (Nd (Lf
  up_269) (Lf up_269)) (Nd (Lf up_269) (Lf up_269)))) (Nd (Nd (Nd (Lf up_269) (Lf up_269)) (Nd (Lf up_269) (Lf
  up_269))) (Nd (Nd (Lf up_269) (Lf up_269)) (Nd (Lf up_269) (Lf up_269)))))) (Nd (Nd (Nd (Nd (Nd (Lf up_269)
  (Lf up_269)) (Nd (Lf up_269) (Lf up_269))) (Nd (Nd (Lf up_269) (Lf up_269)) (Nd (Lf up_269) (Lf up_269))))
  (Nd (Nd (Nd (Lf up_269) (Lf up_269)) (Nd (Lf up_269) (Lf up_269))) (Nd (Nd (Lf up_269) (Lf up_269)) (Nd (Lf
  up_269) (Lf up_269))))) (Nd (Nd (Nd (Nd (Lf up_269) (Lf up_269)) (Nd (Lf up_269) (Lf up_269))) (Nd (Nd (Lf
  up_269) (Lf up_269)) (Nd (Lf up_269) (Lf up_269)))) (Nd (Nd (Nd (Lf up_269) (Lf up_269)) (Nd (Lf up_269) (Lf
  up_269))) (Nd (Nd (Lf up_269) (Lf up_269)) (Nd (Lf up_269) (Lf up_269)))))))) (Nd (Nd (Nd (Nd (Nd (Nd (Nd
  (Lf up_269) (Lf up_269)) (Nd (Lf up_269) (Lf up_269))) (Nd (Nd (Lf up_269) (Lf up_269)) (Nd (Lf up_269) (Lf
  up_269)))) (Nd (Nd (Nd (Lf up_269) (Lf up_269)) (Nd (Lf up_269) (Lf up_269))) (Nd (Nd (Lf up_269) (Lf
  up_269)) (Nd (Lf up_269) (Lf up_269))))) (Nd (Nd (Nd (Nd (Lf up_269) (Lf up_269)) (Nd (Lf up_269) (Lf
  up_269))) (Nd (Nd (Lf up_269) (Lf up_269)) (Nd (Lf up_269) (Lf up_269)))) (Nd (Nd (Nd (Lf up_269) (Lf
  up_269)) (Nd (Lf up_269) (Lf up_269))) (Nd (Nd (Lf up_269) (Lf up_269)) (Nd (Lf up_269) (Lf up_269)))))) (Nd
  (Nd (Nd (Nd (Nd (Lf up_269) (Lf up_269)) (Nd (Lf up_269) (Lf up_269))) (Nd (Nd (Lf up_269) (Lf up_269)) (Nd
  (Lf up_269) (Lf up_269)))) (Nd (Nd (Nd (Lf up_269) (Lf up_269)) (Nd (Lf up_269) (Lf up_269))) (Nd (Nd (Lf
  up_269) (Lf up_269)) (Nd (Lf up_269) (Lf up_269))))) (Nd (Nd (Nd (Nd (Lf up_269) (Lf up_269)) (Nd (Lf
  up_269) (Lf up_269))) (Nd (Nd (Lf up_269) (Lf up_269)) (Nd (Lf up_269) (Lf up_269)))) (Nd (Nd (Nd (Lf
  up_269) (Lf up_269)) (Nd (Lf up_269) (Lf up_269))) (Nd (Nd (Lf up_269) (Lf up_269)) (Nd (Lf up_269) (Lf
  up_269))))))) (Nd (Nd (Nd (Nd (Nd (Nd (Lf up_269) (Lf up_269)) (Nd (Lf up_269) (Lf up_269))) (Nd (Nd (Lf
  up_269) (Lf up_269)) (Nd (Lf up_269) (Lf up_269)))) (Nd (Nd (Nd (Lf up_269) (Lf up_269)) (Nd (Lf up_269) (Lf
  up_269))) (Nd (Nd (Lf up_269) (Lf up_269)) (Nd (Lf up_269) (Lf up_269))))) (Nd (Nd (Nd (Nd (Lf up_269) (Lf
  up_269)) (Nd (Lf up_269) (Lf up_269))) (Nd (Nd (Lf up_269) (Lf up_269)) (Nd (Lf up_269) (Lf up_269)))) (Nd
  (Nd (Nd (Lf up_269) (Lf up_269)) (Nd (Lf up_269) (Lf up_269))) (Nd (Nd (Lf up_269) (Lf up_269)) (Nd (Lf
  up_269) (Lf up_269)))))) (Nd (Nd (Nd (Nd (Nd (Lf up_269) (Lf up_269)) (Nd (Lf up_269) (Lf up_269))) (Nd (Nd
  (Lf up_269) (Lf up_269)) (Nd (Lf up_269) (Lf up_269)))) (Nd (Nd (Nd (Lf up_269) (Lf up_269)) (Nd (Lf up_269)
  (Lf up_269))) (Nd (Nd (Lf up_269) (Lf up_269)) (Nd (Lf up_269) (Lf up_269))))) (Nd (Nd (Nd (Nd (Lf up_269)
  (Lf up_269)) (Nd (Lf up_269) (Lf up_269))) (Nd (Nd (Lf up_269) (Lf up_269)) (Nd (Lf up_269) (Lf up_269))))
  (Nd (Nd (Nd (Lf up_269) (Lf up_269)) (Nd (Lf up_269) (Lf up_269))) (Nd (Nd (Lf up_269) (Lf up_269)) (Nd (Lf
  up_269) (Lf up_269))))))))))) (Nd (Nd (Nd (Nd (Nd (Nd (Nd (Nd (Nd (Nd (Lf up_269) (Lf up_269)) (Nd (Lf
  up_269) (Lf up_269))) (Nd (Nd (Lf up_269) (Lf up_269)) (Nd (Lf up_269) (Lf up_269)))) (Nd (Nd (Nd (Lf
  up_269) (Lf up_269)) (Nd (Lf up_269) (Lf up_269))) (Nd (Nd (Lf up_269) (Lf up_269)) (Nd (Lf up_269) (Lf
  up_269))))) (Nd (Nd (Nd (Nd (Lf up_269) (Lf up_269)) (Nd (Lf up_269) (Lf up_269))) (Nd (Nd (Lf up_269) (Lf
  up_269)) (Nd (Lf up_269) (Lf up_269)))) (Nd (Nd (Nd (Lf up_269) (Lf up_269)) (Nd (Lf up_269) (Lf up_269)))
  (Nd (Nd (Lf up_269) (Lf up_269)) (Nd (Lf up_269) (Lf up_269)))))) (Nd (Nd (Nd (Nd (Nd (Lf up_269) (Lf
  up_269)) (Nd (Lf up_269) (Lf up_269))) (Nd (Nd (Lf up_269) (Lf up_269)) (Nd (Lf up_269) (Lf up_269)))) (Nd
  (Nd (Nd (Lf up_269) (Lf up_269)) (Nd (Lf up_269) (Lf up_269))) (Nd (Nd (Lf up_269) (Lf up_269)) (Nd (Lf
  up_269) (Lf up_269))))) (Nd (Nd (Nd (Nd (Lf up_269) (Lf up_269)) (Nd (Lf up_269) (Lf up_269))) (Nd (Nd (Lf
  up_269) (Lf up_269)) (Nd (Lf up_269) (Lf up_269)))) (Nd (Nd (Nd (Lf up_269) (Lf up_269)) (Nd (Lf up_269) (Lf
  up_269))) (Nd (Nd (Lf up_269) (Lf up_269)) (Nd (Lf up_269) (Lf up_269))))))) (Nd (Nd (Nd (Nd (Nd (Nd (Lf
  up_269) (Lf up_269)) (Nd (Lf up_269) (Lf up_269))) (Nd (Nd (Lf up_269) (Lf up_269)) (Nd (Lf up_269) (Lf
  up_269)))) (Nd (Nd (Nd (Lf up_269) (Lf up_269)) (Nd (Lf up_269) (Lf up_269))) (Nd (Nd (Lf up_269) (Lf
  up_269)) (Nd (Lf up_269) (Lf up_269))))) (Nd (Nd (Nd (Nd (Lf up_269) (Lf up_269)) (Nd (Lf up_269) (Lf
  up_269))) (Nd (Nd (Lf up_269) (Lf up_269)) (Nd (Lf up_269) (Lf up_269)))) (Nd (Nd (Nd (Lf up_269) (Lf
  up_269)) (Nd (Lf up_269) (Lf up_269))) (Nd (Nd (Lf up_269) (Lf up_269)) (Nd (Lf up_269) (Lf up_269)))))) (Nd
  (Nd (Nd (Nd (Nd (Lf up_269) (Lf up_269)) (Nd (Lf up_269) (Lf up_269))) (Nd (Nd (Lf up_269) (Lf up_269)) (Nd
  (Lf up_269) (Lf up_269)))) (Nd (Nd (Nd (Lf up_269) (Lf up_269)) (Nd (Lf up_269) (Lf up_269))) (Nd (Nd (Lf
  up_269) (Lf up_269)) (Nd (Lf up_269) (Lf up_269))))) (Nd (Nd (Nd (Nd (Lf up_269) (Lf up_269)) (Nd (Lf
  up_269) (Lf up_269))) (Nd (Nd (Lf up_269) (Lf up_269)) (Nd (Lf up_269) (Lf up_269)))) (Nd (Nd (Nd (Lf
  up_269) (Lf up_269)) (Nd (Lf up_269) (Lf up_269))) (Nd (Nd (Lf up_269) (Lf up_269)) (Nd (Lf up_269) (Lf
  up_269)))))))) (Nd (Nd (Nd (Nd (Nd (Nd (Nd (Lf up_269) (Lf up_269)) (Nd (Lf up_269) (Lf up_269))) (Nd (Nd
  (Lf up_269) (Lf up_269)) (Nd (Lf up_269) (Lf up_269)))) (Nd (Nd (Nd (Lf up_269) (Lf up_269)) (Nd (Lf up_269)
  (Lf up_269))) (Nd (Nd (Lf up_269) (Lf up_269)) (Nd (Lf up_269) (Lf up_269))))) (Nd (Nd (Nd (Nd (Lf up_269)
  (Lf up_269)) (Nd (Lf up_269) (Lf up_269))) (Nd (Nd (Lf up_269) (Lf up_269)) (Nd (Lf up_269) (Lf up_269))))
  (Nd (Nd (Nd (Lf up_269) (Lf up_269)) (Nd (Lf up_269) (Lf up_269))) (Nd (Nd (Lf up_269) (Lf up_269)) (Nd (Lf
  up_269) (Lf up_269)))))) (Nd (Nd (Nd (Nd (Nd (Lf up_269) (Lf up_269)) (Nd (Lf up_269) (Lf up_269))) (Nd (Nd
  (Lf up_269) (Lf up_269)) (Nd (Lf up_269) (Lf up_269)))) (Nd (Nd (Nd (Lf up_269) (Lf up_269)) (Nd (Lf up_269)
  (Lf up_269))) (Nd (Nd (Lf up_269) (Lf up_269)) (Nd (Lf up_269) (Lf up_269))))) (Nd (Nd (Nd (Nd (Lf up_269)
  (Lf up_269)) (Nd (Lf up_269) (Lf up_269))) (Nd (Nd (Lf up_269) (Lf up_269)) (Nd (Lf up_269) (Lf up_269))))
  (Nd (Nd (Nd (Lf up_269) (Lf up_269)) (Nd (Lf up_269) (Lf up_269))) (Nd (Nd (Lf up_269) (Lf up_269)) (Nd (Lf
  up_269) (Lf up_269))))))) (Nd (Nd (Nd (Nd (Nd (Nd (Lf up_269) (Lf up_269)) (Nd (Lf up_269) (Lf up_269))) (Nd
  (Nd (Lf up_269) (Lf up_269)) (Nd (Lf up_269) (Lf up_269)))) (Nd (Nd (Nd (Lf up_269) (Lf up_269)) (Nd (Lf
  up_269) (Lf up_269))) (Nd (Nd (Lf up_269) (Lf up_269)) (Nd (Lf up_269) (Lf up_269))))) (Nd (Nd (Nd (Nd (Lf
  up_269) (Lf up_269)) (Nd (Lf up_269) (Lf up_269))) (Nd (Nd (Lf up_269) (Lf up_269)) (Nd (Lf up_269) (Lf
  up_269)))) (Nd (Nd (Nd (Lf up_269) (Lf up_269)) (Nd (Lf up_269) (Lf up_269))) (Nd (Nd (Lf up_269) (Lf
  up_269)) (Nd (Lf up_269) (Lf up_269)))))) (Nd (Nd (Nd (Nd (Nd (Lf up_269) (Lf up_269)) (Nd (Lf up_269) (Lf
  up_269))) (Nd (Nd (Lf up_269) (Lf up_269)) (Nd (Lf up_269) (Lf up_269)))) (Nd (Nd (Nd (Lf up_269) (Lf
  up_269)) (Nd (Lf up_269) (Lf up_269))) (Nd (Nd (Lf up_269) (Lf up_269)) (Nd (Lf up_269) (Lf up_269))))) (Nd
  (Nd (Nd (Nd (Lf up_269) (Lf up_269)) (Nd (Lf up_269) (Lf up_269))) (Nd (Nd (Lf up_269) (Lf up_269)) (Nd (Lf
  up_269) (Lf up_269)))) (Nd (Nd (Nd (Lf up_269) (Lf up_269)) (Nd (Lf up_269) (Lf up_269))) (Nd (Nd (Lf
  up_269) (Lf up_271)) (Nd (Lf up_57) (Lf up_57))))))))) (Nd (Nd (Nd (Nd (Nd (Nd (Nd (Nd (Lf up_109) (Lf
  up_109)) (Nd (Lf up_109) (Lf up_109))) (Nd (Nd (Lf up_109) (Lf up_109)) (Nd (Lf up_109) (Lf up_109)))) (Nd
  (Nd (Nd (Lf up_109) (Lf up_109)) (Nd (Lf up_109) (Lf up_109))) (Nd (Nd (Lf up_109) (Lf up_109)) (Nd (Lf
  up_109) (Lf up_109))))) (Nd (Nd (Nd (Nd (Lf up_109) (Lf up_109)) (Nd (Lf up_109) (Lf up_109))) (Nd (Nd (Lf
  up_109) (Lf up_109)) (Nd (Lf up_109) (Lf up_109)))) (Nd (Nd (Nd (Lf up_109) (Lf up_109)) (Nd (Lf up_109) (Lf
  up_109))) (Nd (Nd (Lf up_109) (Lf up_109)) (Nd (Lf up_109) (Lf up_109)))))) (Nd (Nd (Nd (Nd (Nd (Lf up_109)
  (Lf up_109)) (Nd (Lf up_109) (Lf up_109))) (Nd (Nd (Lf up_272) (Lf up_148)) (Nd (Lf up_200) (Lf up_57))))
  (Nd (Nd (Nd (Lf up_57) (Lf up_57)) (Nd (Lf up_57) (Lf up_57))) (Nd (Nd (Lf up_57) (Lf up_57)) (Nd (Lf up_57)
  (Lf up_57))))) (Nd (Nd (Nd (Nd (Lf up_57) (Lf up_57)) (Nd (Lf up_57) (Lf up_57))) (Nd (Nd (Lf up_57) (Lf
  up_57)) (Nd (Lf up_57) (Lf up_57)))) (Nd (Nd (Nd (Lf up_57) (Lf up_57)) (Nd (Lf up_57) (Lf up_57))) (Nd (Nd
  (Lf up_57) (Lf up_57)) (Nd (Lf up_57) (Lf up_57))))))) (Nd (Nd (Nd (Nd (Nd (Nd (Lf up_57) (Lf up_57)) (Nd
  (Lf up_57) (Lf up_57))) (Nd (Nd (Lf up_57) (Lf up_57)) (Nd (Lf up_57) (Lf up_57)))) (Nd (Nd (Nd (Lf up_57)
  (Lf up_57)) (Nd (Lf up_57) (Lf up_57))) (Nd (Nd (Lf up_57) (Lf up_57)) (Nd (Lf up_57) (Lf up_57))))) (Nd (Nd
  (Nd (Nd (Lf up_57) (Lf up_57)) (Nd (Lf up_57) (Lf up_57))) (Nd (Nd (Lf up_57) (Lf up_57)) (Nd (Lf up_57) (Lf
  up_57)))) (Nd (Nd (Nd (Lf up_57) (Lf up_57)) (Nd (Lf up_57) (Lf up_57))) (Nd (Nd (Lf up_57) (Lf up_57)) (Nd
  (Lf up_57) (Lf up_57)))))) (Nd (Nd (Nd (Nd (Nd (Lf up_109) (Lf up_109)) (Nd (Lf up_109) (Lf up_109))) (Nd
  (Nd (Lf up_109) (Lf up_109)) (Nd (Lf up_109) (Lf up_109)))) (Nd (Nd (Nd (Lf up_109) (Lf up_109)) (Nd (Lf
  up_109) (Lf up_109))) (Nd (Nd (Lf up_109) (Lf up_109)) (Nd (Lf up_109) (Lf up_109))))) (Nd (Nd (Nd (Nd (Lf
  up_109) (Lf up_109)) (Nd (Lf up_109) (Lf up_109))) (Nd (Nd (Lf up_109) (Lf up_109)) (Nd (Lf up_109) (Lf
  up_109)))) (Nd (Nd (Nd (Lf up_109) (Lf up_109)) (Nd (Lf up_109) (Lf up_109))) (Nd (Nd (Lf up_109) (Lf
  up_109)) (Nd (Lf up_109) (Lf up_109)))))))) (Nd (Nd (Nd (Nd (Nd (Nd (Nd (Lf up_109) (Lf up_109)) (Nd (Lf
  up_109) (Lf up_109))) (Nd (Nd (Lf up_109) (Lf up_109)) (Nd (Lf up_109) (Lf up_109)))) (Nd (Nd (Nd (Lf
  up_109) (Lf up_109)) (Nd (Lf up_109) (Lf up_109))) (Nd (Nd (Lf up_109) (Lf up_109)) (Nd (Lf up_109) (Lf
  up_109))))) (Nd (Nd (Nd (Nd (Lf up_109) (Lf up_109)) (Nd (Lf up_109) (Lf up_109))) (Nd (Nd (Lf up_109) (Lf
  up_109)) (Nd (Lf up_109) (Lf up_109)))) (Nd (Nd (Nd (Lf up_109) (Lf up_109)) (Nd (Lf up_109) (Lf up_109)))
  (Nd (Nd (Lf up_109) (Lf up_109)) (Nd (Lf up_109) (Lf up_109)))))) (Nd (Nd (Nd (Nd (Nd (Lf up_109) (Lf
  up_109)) (Nd (Lf up_109) (Lf up_109))) (Nd (Nd (Lf up_109) (Lf up_109)) (Nd (Lf up_109) (Lf up_109)))) (Nd
  (Nd (Nd (Lf up_109) (Lf up_109)) (Nd (Lf up_109) (Lf up_109))) (Nd (Nd (Lf up_109) (Lf up_109)) (Nd (Lf
  up_109) (Lf up_109))))) (Nd (Nd (Nd (Nd (Lf up_109) (Lf up_109)) (Nd (Lf up_109) (Lf up_109))) (Nd (Nd (Lf
  up_109) (Lf up_109)) (Nd (Lf up_109) (Lf up_109)))) (Nd (Nd (Nd (Lf up_109) (Lf up_109)) (Nd (Lf up_109) (Lf
  up_109))) (Nd (Nd (Lf up_109) (Lf up_109)) (Nd (Lf up_109) (Lf up_109))))))) (Nd (Nd (Nd (Nd (Nd (Nd (Lf
  up_109) (Lf up_109)) (Nd (Lf up_109) (Lf up_109))) (Nd (Nd (Lf up_109) (Lf up_109)) (Nd (Lf up_109) (Lf
  up_109)))) (Nd (Nd (Nd (Lf up_109) (Lf up_109)) (Nd (Lf up_109) (Lf up_109))) (Nd (Nd (Lf up_109) (Lf
  up_109)) (Nd (Lf up_109) (Lf up_109))))) (Nd (Nd (Nd (Nd (Lf up_109) (Lf up_109)) (Nd (Lf up_109) (Lf
  up_109))) (Nd (Nd (Lf up_109) (Lf up_109)) (Nd (Lf up_109) (Lf up_109)))) (Nd (Nd (Nd (Lf up_109) (Lf
  up_109)) (Nd (Lf up_109) (Lf up_109))) (Nd (Nd (Lf up_109) (Lf up_109)) (Nd (Lf up_109) (Lf up_109)))))) (Nd
  (Nd (Nd (Nd (Nd (Lf up_109) (Lf up_109)) (Nd (Lf up_109) (Lf up_109))) (Nd (Nd (Lf up_109) (Lf up_109)) (Nd
  (Lf up_109) (Lf up_109)))) (Nd (Nd (Nd (Lf up_109) (Lf up_109)) (Nd (Lf up_109) (Lf up_109))) (Nd (Nd (Lf
  up_109) (Lf up_109)) (Nd (Lf up_109) (Lf up_109))))) (Nd (Nd (Nd (Nd (Lf up_109) (Lf up_109)) (Nd (Lf
  up_109) (Lf up_109))) (Nd (Nd (Lf up_109) (Lf up_109)) (Nd (Lf up_109) (Lf up_109)))) (Nd (Nd (Nd (Lf
  up_109) (Lf up_109)) (Nd (Lf up_109) (Lf up_109))) (Nd (Nd (Lf up_109) (Lf up_109)) (Nd (Lf up_109) (Lf
  up_109)))))))))) (Nd (Nd (Nd (Nd (Nd (Nd (Nd (Nd (Nd (Lf up_109) (Lf up_109)) (Nd (Lf up_109) (Lf up_109)))
  (Nd (Nd (Lf up_109) (Lf up_109)) (Nd (Lf up_109) (Lf up_109)))) (Nd (Nd (Nd (Lf up_109) (Lf up_109)) (Nd (Lf
  up_109) (Lf up_109))) (Nd (Nd (Lf up_109) (Lf up_109)) (Nd (Lf up_109) (Lf up_109))))) (Nd (Nd (Nd (Nd (Lf
  up_109) (Lf up_109)) (Nd (Lf up_109) (Lf up_109))) (Nd (Nd (Lf up_109) (Lf up_109)) (Nd (Lf up_109) (Lf
  up_109)))) (Nd (Nd (Nd (Lf up_109) (Lf up_109)) (Nd (Lf up_109) (Lf up_109))) (Nd (Nd (Lf up_109) (Lf
  up_109)) (Nd (Lf up_109) (Lf up_109)))))) (Nd (Nd (Nd (Nd (Nd (Lf up_109) (Lf up_109)) (Nd (Lf up_109) (Lf
  up_109))) (Nd (Nd (Lf up_109) (Lf up_109)) (Nd (Lf up_109) (Lf up_109)))) (Nd (Nd (Nd (Lf up_109) (Lf
  up_109)) (Nd (Lf up_109) (Lf up_109))) (Nd (Nd (Lf up_109) (Lf up_109)) (Nd (Lf up_109) (Lf up_109))))) (Nd
  (Nd (Nd (Nd (Lf up_109) (Lf up_109)) (Nd (Lf up_109) (Lf up_109))) (Nd (Nd (Lf up_109) (Lf up_109)) (Nd (Lf
  up_109) (Lf up_109)))) (Nd (Nd (Nd (Lf up_109) (Lf up_109)) (Nd (Lf up_109) (Lf up_109))) (Nd (Nd (Lf
  up_109) (Lf up_109)) (Nd (Lf up_109) (Lf up_109))))))) (Nd (Nd (Nd (Nd (Nd (Nd (Lf up_109) (Lf up_109)) (Nd
  (Lf up_109) (Lf up_109))) (Nd (Nd (Lf up_109) (Lf up_109)) (Nd (Lf up_109) (Lf up_109)))) (Nd (Nd (Nd (Lf
  up_109) (Lf up_109)) (Nd (Lf up_109) (Lf up_109))) (Nd (Nd (Lf up_109) (Lf up_109)) (Nd (Lf up_109) (Lf
  up_109))))) (Nd (Nd (Nd (Nd (Lf up_109) (Lf up_109)) (Nd (Lf up_109) (Lf up_109))) (Nd (Nd (Lf up_109) (Lf
  up_109)) (Nd (Lf up_109) (Lf up_109)))) (Nd (Nd (Nd (Lf up_109) (Lf up_109)) (Nd (Lf up_109) (Lf up_109)))
  (Nd (Nd (Lf up_109) (Lf up_109)) (Nd (Lf up_109) (Lf up_109)))))) (Nd (Nd (Nd (Nd (Nd (Lf up_109) (Lf
  up_109)) (Nd (Lf up_109) (Lf up_109))) (Nd (Nd (Lf up_109) (Lf up_109)) (Nd (Lf up_109) (Lf up_109)))) (Nd
  (Nd (Nd (Lf up_109) (Lf up_109)) (Nd (Lf up_109) (Lf up_109))) (Nd (Nd (Lf up_109) (Lf up_109)) (Nd (Lf
  up_109) (Lf up_109))))) (Nd (Nd (Nd (Nd (Lf up_109) (Lf up_109)) (Nd (Lf up_109) (Lf up_109))) (Nd (Nd (Lf
  up_109) (Lf up_109)) (Nd (Lf up_109) (Lf up_109)))) (Nd (Nd (Nd (Lf up_109) (Lf up_109)) (Nd (Lf up_109) (Lf
  up_109))) (Nd (Nd (Lf up_109) (Lf up_109)) (Nd (Lf up_109) (Lf up_109)))))))) (Nd (Nd (Nd (Nd (Nd (Nd (Nd
  (Lf up_109) (Lf up_109)) (Nd (Lf up_109) (Lf up_109))) (Nd (Nd (Lf up_109) (Lf up_109)) (Nd (Lf up_109) (Lf
  up_109)))) (Nd (Nd (Nd (Lf up_109) (Lf up_109)) (Nd (Lf up_109) (Lf up_109))) (Nd (Nd (Lf up_109) (Lf
  up_109)) (Nd (Lf up_109) (Lf up_109))))) (Nd (Nd (Nd (Nd (Lf up_109) (Lf up_109)) (Nd (Lf up_109) (Lf
  up_109))) (Nd (Nd (Lf up_109) (Lf up_109)) (Nd (Lf up_109) (Lf up_109)))) (Nd (Nd (Nd (Lf up_109) (Lf
  up_109)) (Nd (Lf up_109) (Lf up_109))) (Nd (Nd (Lf up_109) (Lf up_109)) (Nd (Lf up_109) (Lf up_109)))))) (Nd
  (Nd (Nd (Nd (Nd (Lf up_109) (Lf up_109)) (Nd (Lf up_109) (Lf up_109))) (Nd (Nd (Lf up_109) (Lf up_109)) (Nd
  (Lf up_109) (Lf up_109)))) (Nd (Nd (Nd (Lf up_109) (Lf up_109)) (Nd (Lf up_109) (Lf up_109))) (Nd (Nd (Lf
  up_109) (Lf up_109)) (Nd (Lf up_109) (Lf up_109))))) (Nd (Nd (Nd (Nd (Lf up_109) (Lf up_109)) (Nd (Lf
  up_109) (Lf up_109))) (Nd (Nd (Lf up_109) (Lf up_109)) (Nd (Lf up_109) (Lf up_109)))) (Nd (Nd (Nd (Lf
  up_109) (Lf up_109)) (Nd (Lf up_109) (Lf up_109))) (Nd (Nd (Lf up_109) (Lf up_273)) (Nd (Lf up_57) (Lf
  up_57))))))) (Nd (Nd (Nd (Nd (Nd (Nd (Lf up_274) (Lf up_274)) (Nd (Lf up_274) (Lf up_274))) (Nd (Nd (Lf
  up_274) (Lf up_274)) (Nd (Lf up_274) (Lf up_274)))) (Nd (Nd (Nd (Lf up_274) (Lf up_274)) (Nd (Lf up_274) (Lf
  up_274))) (Nd (Nd (Lf up_274) (Lf up_274)) (Nd (Lf up_274) (Lf up_274))))) (Nd (Nd (Nd (Nd (Lf up_274) (Lf
  up_274)) (Nd (Lf up_274) (Lf up_274))) (Nd (Nd (Lf up_274) (Lf up_274)) (Nd (Lf up_274) (Lf up_274)))) (Nd
  (Nd (Nd (Lf up_274) (Lf up_274)) (Nd (Lf up_274) (Lf up_274))) (Nd (Nd (Lf up_275) (Lf up_275)) (Nd (Lf
  up_275) (Lf up_275)))))) (Nd (Nd (Nd (Nd (Nd (Lf up_276) (Lf up_276)) (Nd (Lf up_276) (Lf up_276))) (Nd (Nd
  (Lf up_276) (Lf up_276)) (Nd (Lf up_276) (Lf up_276)))) (Nd (Nd (Nd (Lf up_276) (Lf up_276)) (Nd (Lf up_276)
  (Lf up_276))) (Nd (Nd (Lf up_276) (Lf up_276)) (Nd (Lf up_276) (Lf up_276))))) (Nd (Nd (Nd (Nd (Lf up_276)
  (Lf up_276)) (Nd (Lf up_276) (Lf up_276))) (Nd (Nd (Lf up_276) (Lf up_276)) (Nd (Lf up_276) (Lf up_276))))
  (Nd (Nd (Nd (Lf up_276) (Lf up_276)) (Nd (Lf up_276) (Lf up_276))) (Nd (Nd (Lf up_276) (Lf up_276)) (Nd (Lf
  up_276) (Lf up_276))))))))) (Nd (Nd (Nd (Nd (Nd (Nd (Nd (Nd (Lf up_277) (Lf up_277)) (Nd (Lf up_277) (Lf
  up_277))) (Nd (Nd (Lf up_277) (Lf up_277)) (Nd (Lf up_277) (Lf up_277)))) (Nd (Nd (Nd (Lf up_277) (Lf
  up_277)) (Nd (Lf up_277) (Lf up_277))) (Nd (Nd (Lf up_277) (Lf up_277)) (Nd (Lf up_277) (Lf up_277))))) (Nd
  (Nd (Nd (Nd (Lf up_277) (Lf up_277)) (Nd (Lf up_277) (Lf up_277))) (Nd (Nd (Lf up_277) (Lf up_277)) (Nd (Lf
  up_277) (Lf up_277)))) (Nd (Nd (Nd (Lf up_277) (Lf up_277)) (Nd (Lf up_277) (Lf up_277))) (Nd (Nd (Lf
  up_277) (Lf up_277)) (Nd (Lf up_277) (Lf up_277)))))) (Nd (Nd (Nd (Nd (Nd (Lf up_277) (Lf up_277)) (Nd (Lf
  up_277) (Lf up_277))) (Nd (Nd (Lf up_277) (Lf up_277)) (Nd (Lf up_277) (Lf up_277)))) (Nd (Nd (Nd (Lf
  up_277) (Lf up_277)) (Nd (Lf up_277) (Lf up_277))) (Nd (Nd (Lf up_277) (Lf up_277)) (Nd (Lf up_277) (Lf
  up_277))))) (Nd (Nd (Nd (Nd (Lf up_277) (Lf up_277)) (Nd (Lf up_277) (Lf up_277))) (Nd (Nd (Lf up_277) (Lf
  up_277)) (Nd (Lf up_277) (Lf up_277)))) (Nd (Nd (Nd (Lf up_277) (Lf up_277)) (Nd (Lf up_277) (Lf up_277)))
  (Nd (Nd (Lf up_277) (Lf up_277)) (Nd (Lf up_277) (Lf up_277))))))) (Nd (Nd (Nd (Nd (Nd (Nd (Lf up_277) (Lf
  up_277)) (Nd (Lf up_277) (Lf up_277))) (Nd (Nd (Lf up_277) (Lf up_277)) (Nd (Lf up_277) (Lf up_277)))) (Nd
  (Nd (Nd (Lf up_277) (Lf up_277)) (Nd (Lf up_277) (Lf up_277))) (Nd (Nd (Lf up_277) (Lf up_277)) (Nd (Lf
  up_277) (Lf up_277))))) (Nd (Nd (Nd (Nd (Lf up_277) (Lf up_277)) (Nd (Lf up_277) (Lf up_277))) (Nd (Nd (Lf
  up_277) (Lf up_277)) (Nd (Lf up_277) (Lf up_277)))) (Nd (Nd (Nd (Lf up_277) (Lf up_277)) (Nd (Lf up_277) (Lf
  up_277))) (Nd (Nd (Lf up_277) (Lf up_277)) (Nd (Lf up_277) (Lf up_277)))))) (Nd (Nd (Nd (Nd (Nd (Lf up_277)
  (Lf up_277)) (Nd (Lf up_277) (Lf up_277))) (Nd (Nd (Lf up_277) (Lf up_277)) (Nd (Lf up_277) (Lf up_277))))
  (Nd (Nd (Nd (Lf up_277) (Lf up_277)) (Nd (Lf up_277) (Lf up_277))) (Nd (Nd (Lf up_277) (Lf up_277)) (Nd (Lf
  up_277) (Lf up_277))))) (Nd (Nd (Nd (Nd (Lf up_277) (Lf up_277)) (Nd (Lf up_277) (Lf up_277))) (Nd (Nd (Lf
  up_277) (Lf up_277)) (Nd (Lf up_277) (Lf up_277)))) (Nd (Nd (Nd (Lf up_277) (Lf up_277)) (Nd (Lf up_277) (Lf
  up_277))) (Nd (Nd (Lf up_277) (Lf up_277)) (Nd (Lf up_277) (Lf up_277)))))))) (Nd (Nd (Nd (Nd (Nd (Nd (Nd
  (Lf up_277) (Lf up_277)) (Nd (Lf up_277) (Lf up_277))) (Nd (Nd (Lf up_277) (Lf up_277)) (Nd (Lf up_277) (Lf
  up_277)))) (Nd (Nd (Nd (Lf up_277) (Lf up_277)) (Nd (Lf up_277) (Lf up_277))) (Nd (Nd (Lf up_277) (Lf
  up_277)) (Nd (Lf up_277) (Lf up_277))))) (Nd (Nd (Nd (Nd (Lf up_277) (Lf up_277)) (Nd (Lf up_277) (Lf
  up_277))) (Nd (Nd (Lf up_277) (Lf up_277)) (Nd (Lf up_277) (Lf up_277)))) (Nd (Nd (Nd (Lf up_277) (Lf
  up_277)) (Nd (Lf up_277) (Lf up_277))) (Nd (Nd (Lf up_277) (Lf up_277)) (Nd (Lf up_277) (Lf up_277)))))) (Nd
  (Nd (Nd (Nd (Nd (Lf up_277) (Lf up_277)) (Nd (Lf up_277) (Lf up_277))) (Nd (Nd (Lf up_277) (Lf up_277)) (Nd
  (Lf up_277) (Lf up_277)))) (Nd (Nd (Nd (Lf up_277) (Lf up_277)) (Nd (Lf up_277) (Lf up_277))) (Nd (Nd (Lf
  up_277) (Lf up_277)) (Nd (Lf up_277) (Lf up_277))))) (Nd (Nd (Nd (Nd (Lf up_277) (Lf up_277)) (Nd (Lf
  up_277) (Lf up_277))) (Nd (Nd (Lf up_277) (Lf up_277)) (Nd (Lf up_277) (Lf up_277)))) (Nd (Nd (Nd (Lf
  up_277) (Lf up_277)) (Nd (Lf up_277) (Lf up_277))) (Nd (Nd (Lf up_277) (Lf up_277)) (Nd (Lf up_277) (Lf
  up_277))))))) (Nd (Nd (Nd (Nd (Nd (Nd (Lf up_277) (Lf up_277)) (Nd (Lf up_277) (Lf up_277))) (Nd (Nd (Lf
  up_277) (Lf up_277)) (Nd (Lf up_277) (Lf up_277)))) (Nd (Nd (Nd (Lf up_278) (Lf up_279)) (Nd (Lf up_280) (Lf
  up_281))) (Nd (Nd (Lf up_282) (Lf up_283)) (Nd (Lf up_284) (Lf up_285))))) (Nd (Nd (Nd (Nd (Lf up_286) (Lf
  up_287)) (Nd (Lf up_288) (Lf up_289))) (Nd (Nd (Lf up_57) (Lf up_57)) (Nd (Lf up_57) (Lf up_57)))) (Nd (Nd
  (Nd (Lf up_290) (Lf up_291)) (Nd (Lf up_292) (Lf up_293))) (Nd (Nd (Lf up_294) (Lf up_295)) (Nd (Lf up_296)
  (Lf up_297)))))) (Nd (Nd (Nd (Nd (Nd (Lf up_298) (Lf up_299)) (Nd (Lf up_300) (Lf up_301))) (Nd (Nd (Lf
  up_302) (Lf up_303)) (Nd (Lf up_304) (Lf up_305)))) (Nd (Nd (Nd (Lf up_306) (Lf up_307)) (Nd (Lf up_308) (Lf
  up_309))) (Nd (Nd (Lf up_310) (Lf up_311)) (Nd (Lf up_312) (Lf up_313))))) (Nd (Nd (Nd (Nd (Lf up_314) (Lf
  up_315)) (Nd (Lf up_316) (Lf up_317))) (Nd (Nd (Lf up_318) (Lf up_319)) (Nd (Lf up_320) (Lf up_321)))) (Nd
  (Nd (Nd (Lf up_322) (Lf up_323)) (Nd (Lf up_324) (Lf up_325))) (Nd (Nd (Lf up_326) (Lf up_327)) (Nd (Lf
  up_328) (Lf up_329)))))))))))).
