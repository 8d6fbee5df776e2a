(** Specification: which macros belong together. *)
From Verif Require Import Base EncSseModel NativeModel.

(** What holds of the macros when the target is a processor as it is sold: each
    instruction set comes with the older ones, AVX2 with POPCNT and LZCNT, and no AVX512
    processor is an Atom, a Silvermont or one of AMD's small cores, which are the ones
    with the macros [T_atom], [T_slm], [T_btver1] and [T_btver2]. *)
Record sound (M : macros) : Prop := {
  s_ssse3 : m_sse41 M = true -> m_ssse3 M = true;
  s_sse41 : m_avx2 M = true -> m_sse41 M = true;
  s_avx2 : m_avx512bw M = true -> m_avx2 M = true;
  s_bw : m_vbmi2 M = true -> m_avx512bw M = true;
  s_popcnt : m_avx2 M = true -> m_popcnt M = true;
  s_lzcnt : m_avx2 M = true -> m_lzcnt M = true;
  s_tune : m_avx512bw M = true -> ~ In (m_tune M) [T_atom; T_slm; T_btver1; T_btver2]
}.
