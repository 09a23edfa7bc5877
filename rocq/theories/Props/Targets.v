(** Some compilation targets, for the concrete cases. *)
From Verif.Model Require Import Base.

(** x86_64 with AVX2, little-endian. *)
Definition x86_64_avx2 : target :=
  {| t_arch := X86_64; t_big_endian := false; t_ptr := 8; t_sse := true; t_sse2 := true;
     t_sse41 := true; t_sse42 := true; t_ssse3 := true; t_avx := true; t_avx2 := true;
     t_neon := false; t_v7 := false; t_core_arch := true; t_sleef := false; t_debug := false |}.

(** x86_64 with the features every x86_64 machine has. *)
Definition x86_64_base : target :=
  {| t_arch := X86_64; t_big_endian := false; t_ptr := 8; t_sse := true; t_sse2 := true;
     t_sse41 := false; t_sse42 := false; t_ssse3 := false; t_avx := false; t_avx2 := false;
     t_neon := false; t_v7 := false; t_core_arch := true; t_sleef := false; t_debug := false |}.

(** x86_64 with SSSE3. *)
Definition x86_64_ssse3 : target :=
  {| t_arch := X86_64; t_big_endian := false; t_ptr := 8; t_sse := true; t_sse2 := true;
     t_sse41 := false; t_sse42 := false; t_ssse3 := true; t_avx := false; t_avx2 := false;
     t_neon := false; t_v7 := false; t_core_arch := true; t_sleef := false; t_debug := false |}.

(** 64-bit Arm with Neon. *)
Definition aarch64_neon : target :=
  {| t_arch := Aarch64; t_big_endian := false; t_ptr := 8; t_sse := false; t_sse2 := false;
     t_sse41 := false; t_sse42 := false; t_ssse3 := false; t_avx := false; t_avx2 := false;
     t_neon := true; t_v7 := false; t_core_arch := true; t_sleef := false; t_debug := false |}.

(** s390x, big-endian. *)
Definition s390x : target :=
  {| t_arch := S390x; t_big_endian := true; t_ptr := 8; t_sse := false; t_sse2 := false;
     t_sse41 := false; t_sse42 := false; t_ssse3 := false; t_avx := false; t_avx2 := false;
     t_neon := false; t_v7 := false; t_core_arch := true; t_sleef := false; t_debug := false |}.

(** x86_64 with AVX2 or with SSE4.2 only, built with the SLEEF back end. *)
Definition x86_64_avx2_sleef : target :=
  {| t_arch := X86_64; t_big_endian := false; t_ptr := 8; t_sse := true; t_sse2 := true;
     t_sse41 := true; t_sse42 := true; t_ssse3 := true; t_avx := true; t_avx2 := true;
     t_neon := false; t_v7 := false; t_core_arch := true; t_sleef := true; t_debug := false |}.
Definition x86_64_sse42_sleef : target :=
  {| t_arch := X86_64; t_big_endian := false; t_ptr := 8; t_sse := true; t_sse2 := true;
     t_sse41 := true; t_sse42 := true; t_ssse3 := true; t_avx := false; t_avx2 := false;
     t_neon := false; t_v7 := false; t_core_arch := true; t_sleef := true; t_debug := false |}.
