(** The size-class tables compiled into the library, transcribed mechanically
    by tools/gen_tables.py from the four *size_class*.cc files.  Each entry is
    [Sci size span_bytes batch].  Suffix 8: the branch for
    __STDCPP_DEFAULT_NEW_ALIGNMENT__ <= 8; suffix 16: the other branch. *)
From Verif Require Import Base SizeMap.

(** tcmalloc/size_classes.cc:57-108 *)
Definition t_def_8_13 : list sci := [
  Sci 0 0 0;
  Sci 8 8192 32;
  Sci 16 8192 32;
  Sci 32 8192 32;
  Sci 64 8192 32;
  Sci 80 8192 32;
  Sci 96 8192 32;
  Sci 112 8192 32;
  Sci 128 8192 32;
  Sci 160 8192 32;
  Sci 184 8192 32;
  Sci 208 8192 32;
  Sci 256 8192 32;
  Sci 312 8192 32;
  Sci 368 8192 32;
  Sci 448 8192 32;
  Sci 512 8192 32;
  Sci 576 8192 32;
  Sci 704 8192 32;
  Sci 896 8192 32;
  Sci 1024 8192 32;
  Sci 1152 16384 32;
  Sci 1408 16384 32;
  Sci 1792 16384 32;
  Sci 2048 8192 32;
  Sci 2304 16384 28;
  Sci 2688 16384 24;
  Sci 3456 24576 18;
  Sci 4096 8192 16;
  Sci 4736 24576 13;
  Sci 6144 24576 10;
  Sci 8192 8192 8;
  Sci 9472 40960 6;
  Sci 12288 24576 5;
  Sci 16384 16384 4;
  Sci 20480 40960 3;
  Sci 28672 57344 2;
  Sci 32768 32768 2;
  Sci 40960 40960 2;
  Sci 49152 49152 2;
  Sci 65536 65536 2;
  Sci 73728 73728 2;
  Sci 81920 81920 2;
  Sci 98304 98304 2;
  Sci 131072 131072 2;
  Sci 155648 155648 2;
  Sci 204800 204800 2;
  Sci 262144 262144 2].

(** tcmalloc/size_classes.cc:118-169 *)
Definition t_def_8_15 : list sci := [
  Sci 0 0 0;
  Sci 8 32768 32;
  Sci 16 32768 32;
  Sci 32 32768 32;
  Sci 64 32768 32;
  Sci 80 32768 32;
  Sci 88 32768 32;
  Sci 112 32768 32;
  Sci 128 32768 32;
  Sci 160 32768 32;
  Sci 200 32768 32;
  Sci 256 32768 32;
  Sci 312 32768 32;
  Sci 376 32768 32;
  Sci 448 32768 32;
  Sci 512 32768 32;
  Sci 640 32768 32;
  Sci 768 32768 32;
  Sci 896 32768 32;
  Sci 1024 32768 32;
  Sci 1152 32768 32;
  Sci 1280 32768 32;
  Sci 1536 32768 32;
  Sci 2048 32768 32;
  Sci 2304 32768 28;
  Sci 2688 32768 24;
  Sci 3200 32768 20;
  Sci 4096 32768 16;
  Sci 4608 32768 14;
  Sci 5376 32768 12;
  Sci 6528 32768 10;
  Sci 8192 32768 8;
  Sci 9344 65536 7;
  Sci 13056 65536 5;
  Sci 16384 32768 4;
  Sci 21760 65536 3;
  Sci 28032 196608 2;
  Sci 32768 32768 2;
  Sci 38144 163840 2;
  Sci 49152 98304 2;
  Sci 57344 229376 2;
  Sci 65536 65536 2;
  Sci 81920 163840 2;
  Sci 114688 229376 2;
  Sci 131072 131072 2;
  Sci 163840 163840 2;
  Sci 229376 229376 2;
  Sci 262144 262144 2].

(** tcmalloc/size_classes.cc:179-233 *)
Definition t_def_8_18 : list sci := [
  Sci 0 0 0;
  Sci 8 262144 32;
  Sci 16 262144 32;
  Sci 32 262144 32;
  Sci 64 262144 32;
  Sci 80 262144 32;
  Sci 96 262144 32;
  Sci 112 262144 32;
  Sci 128 262144 32;
  Sci 152 262144 32;
  Sci 192 262144 32;
  Sci 256 262144 32;
  Sci 304 262144 32;
  Sci 384 262144 32;
  Sci 448 262144 32;
  Sci 512 262144 32;
  Sci 576 262144 32;
  Sci 640 262144 32;
  Sci 768 262144 32;
  Sci 832 262144 32;
  Sci 1024 262144 32;
  Sci 1280 262144 32;
  Sci 1664 262144 32;
  Sci 2048 262144 32;
  Sci 2560 262144 25;
  Sci 3200 262144 20;
  Sci 4096 262144 16;
  Sci 4480 262144 14;
  Sci 5120 262144 12;
  Sci 6528 262144 10;
  Sci 8192 262144 8;
  Sci 9600 262144 6;
  Sci 11392 262144 5;
  Sci 13056 262144 5;
  Sci 16384 262144 4;
  Sci 21760 262144 3;
  Sci 26112 262144 2;
  Sci 29056 262144 2;
  Sci 32768 262144 2;
  Sci 37376 262144 2;
  Sci 43648 262144 2;
  Sci 52352 262144 2;
  Sci 65536 262144 2;
  Sci 74880 524288 2;
  Sci 87296 262144 2;
  Sci 104832 524288 2;
  Sci 131072 262144 2;
  Sci 149760 786432 2;
  Sci 174720 524288 2;
  Sci 209664 1048576 2;
  Sci 262144 262144 2].

(** tcmalloc/size_classes.cc:243-272 *)
Definition t_def_8_12 : list sci := [
  Sci 0 0 0;
  Sci 8 4096 32;
  Sci 16 4096 32;
  Sci 32 4096 32;
  Sci 64 4096 32;
  Sci 72 4096 32;
  Sci 80 4096 32;
  Sci 96 4096 32;
  Sci 128 4096 32;
  Sci 144 4096 32;
  Sci 160 4096 32;
  Sci 224 4096 32;
  Sci 256 4096 32;
  Sci 288 4096 32;
  Sci 368 4096 32;
  Sci 512 4096 32;
  Sci 576 8192 32;
  Sci 768 8192 32;
  Sci 1024 8192 32;
  Sci 1536 12288 32;
  Sci 2048 16384 32;
  Sci 2688 16384 24;
  Sci 4096 16384 16;
  Sci 4736 20480 13;
  Sci 6144 12288 10;
  Sci 8192 16384 8].

(** tcmalloc/size_classes.cc:286-337 *)
Definition t_def_16_13 : list sci := [
  Sci 0 0 0;
  Sci 8 8192 32;
  Sci 16 8192 32;
  Sci 32 8192 32;
  Sci 64 8192 32;
  Sci 80 8192 32;
  Sci 96 8192 32;
  Sci 112 8192 32;
  Sci 128 8192 32;
  Sci 160 8192 32;
  Sci 176 8192 32;
  Sci 208 8192 32;
  Sci 256 8192 32;
  Sci 304 8192 32;
  Sci 368 8192 32;
  Sci 448 8192 32;
  Sci 512 8192 32;
  Sci 576 8192 32;
  Sci 704 8192 32;
  Sci 896 8192 32;
  Sci 1024 8192 32;
  Sci 1152 16384 32;
  Sci 1408 16384 32;
  Sci 1792 16384 32;
  Sci 2048 8192 32;
  Sci 2304 16384 28;
  Sci 2688 16384 24;
  Sci 3456 24576 18;
  Sci 4096 8192 16;
  Sci 4736 24576 13;
  Sci 6144 24576 10;
  Sci 8192 8192 8;
  Sci 9472 40960 6;
  Sci 12288 24576 5;
  Sci 16384 16384 4;
  Sci 20480 40960 3;
  Sci 28672 57344 2;
  Sci 32768 32768 2;
  Sci 40960 40960 2;
  Sci 49152 49152 2;
  Sci 65536 65536 2;
  Sci 73728 73728 2;
  Sci 81920 81920 2;
  Sci 98304 98304 2;
  Sci 131072 131072 2;
  Sci 155648 155648 2;
  Sci 204800 204800 2;
  Sci 262144 262144 2].

(** tcmalloc/size_classes.cc:347-398 *)
Definition t_def_16_15 : list sci := [
  Sci 0 0 0;
  Sci 8 32768 32;
  Sci 16 32768 32;
  Sci 32 32768 32;
  Sci 64 32768 32;
  Sci 80 32768 32;
  Sci 96 32768 32;
  Sci 112 32768 32;
  Sci 128 32768 32;
  Sci 160 32768 32;
  Sci 192 32768 32;
  Sci 256 32768 32;
  Sci 320 32768 32;
  Sci 384 32768 32;
  Sci 448 32768 32;
  Sci 512 32768 32;
  Sci 640 32768 32;
  Sci 768 32768 32;
  Sci 896 32768 32;
  Sci 1024 32768 32;
  Sci 1152 32768 32;
  Sci 1280 32768 32;
  Sci 1536 32768 32;
  Sci 2048 32768 32;
  Sci 2304 32768 28;
  Sci 2688 32768 24;
  Sci 3200 32768 20;
  Sci 4096 32768 16;
  Sci 4608 32768 14;
  Sci 5376 32768 12;
  Sci 6528 32768 10;
  Sci 8192 32768 8;
  Sci 9344 65536 7;
  Sci 13056 65536 5;
  Sci 16384 32768 4;
  Sci 21760 65536 3;
  Sci 28032 196608 2;
  Sci 32768 32768 2;
  Sci 38144 163840 2;
  Sci 49152 98304 2;
  Sci 57344 229376 2;
  Sci 65536 65536 2;
  Sci 81920 163840 2;
  Sci 114688 229376 2;
  Sci 131072 131072 2;
  Sci 163840 163840 2;
  Sci 229376 229376 2;
  Sci 262144 262144 2].

(** tcmalloc/size_classes.cc:408-462 *)
Definition t_def_16_18 : list sci := [
  Sci 0 0 0;
  Sci 8 262144 32;
  Sci 16 262144 32;
  Sci 32 262144 32;
  Sci 64 262144 32;
  Sci 80 262144 32;
  Sci 96 262144 32;
  Sci 112 262144 32;
  Sci 128 262144 32;
  Sci 160 262144 32;
  Sci 192 262144 32;
  Sci 256 262144 32;
  Sci 304 262144 32;
  Sci 384 262144 32;
  Sci 448 262144 32;
  Sci 512 262144 32;
  Sci 576 262144 32;
  Sci 640 262144 32;
  Sci 768 262144 32;
  Sci 832 262144 32;
  Sci 1024 262144 32;
  Sci 1280 262144 32;
  Sci 1664 262144 32;
  Sci 2048 262144 32;
  Sci 2560 262144 25;
  Sci 3200 262144 20;
  Sci 4096 262144 16;
  Sci 4480 262144 14;
  Sci 5120 262144 12;
  Sci 6528 262144 10;
  Sci 8192 262144 8;
  Sci 9600 262144 6;
  Sci 11392 262144 5;
  Sci 13056 262144 5;
  Sci 16384 262144 4;
  Sci 21760 262144 3;
  Sci 26112 262144 2;
  Sci 29056 262144 2;
  Sci 32768 262144 2;
  Sci 37376 262144 2;
  Sci 43648 262144 2;
  Sci 52352 262144 2;
  Sci 65536 262144 2;
  Sci 74880 524288 2;
  Sci 87296 262144 2;
  Sci 104832 524288 2;
  Sci 131072 262144 2;
  Sci 149760 786432 2;
  Sci 174720 524288 2;
  Sci 209664 1048576 2;
  Sci 262144 262144 2].

(** tcmalloc/size_classes.cc:472-501 *)
Definition t_def_16_12 : list sci := [
  Sci 0 0 0;
  Sci 8 4096 32;
  Sci 16 4096 32;
  Sci 32 4096 32;
  Sci 64 4096 32;
  Sci 80 4096 32;
  Sci 96 4096 32;
  Sci 128 4096 32;
  Sci 144 4096 32;
  Sci 160 4096 32;
  Sci 224 4096 32;
  Sci 256 4096 32;
  Sci 288 4096 32;
  Sci 368 4096 32;
  Sci 512 4096 32;
  Sci 576 8192 32;
  Sci 768 8192 32;
  Sci 1024 8192 32;
  Sci 1536 12288 32;
  Sci 2048 16384 32;
  Sci 2688 16384 24;
  Sci 3328 20480 19;
  Sci 4096 16384 16;
  Sci 4736 20480 13;
  Sci 6144 12288 10;
  Sci 8192 16384 8].

(** tcmalloc/legacy_size_classes.cc:57-146 *)
Definition t_legacy_8_13 : list sci := [
  Sci 0 0 0;
  Sci 8 8192 32;
  Sci 16 8192 32;
  Sci 24 8192 32;
  Sci 32 8192 32;
  Sci 40 8192 32;
  Sci 48 8192 32;
  Sci 56 8192 32;
  Sci 64 8192 32;
  Sci 72 8192 32;
  Sci 80 8192 32;
  Sci 88 8192 32;
  Sci 96 8192 32;
  Sci 104 8192 32;
  Sci 112 8192 32;
  Sci 120 8192 32;
  Sci 128 8192 32;
  Sci 136 8192 32;
  Sci 144 8192 32;
  Sci 160 8192 32;
  Sci 168 8192 32;
  Sci 176 8192 32;
  Sci 184 8192 32;
  Sci 192 8192 32;
  Sci 208 8192 32;
  Sci 224 8192 32;
  Sci 240 8192 32;
  Sci 256 8192 32;
  Sci 272 8192 32;
  Sci 296 8192 32;
  Sci 312 8192 32;
  Sci 320 8192 32;
  Sci 352 8192 32;
  Sci 368 8192 32;
  Sci 384 8192 32;
  Sci 408 8192 32;
  Sci 424 8192 32;
  Sci 448 8192 32;
  Sci 480 8192 32;
  Sci 512 8192 32;
  Sci 576 8192 32;
  Sci 640 8192 32;
  Sci 704 8192 32;
  Sci 768 8192 32;
  Sci 896 8192 32;
  Sci 1024 8192 32;
  Sci 1152 16384 32;
  Sci 1280 16384 32;
  Sci 1408 16384 32;
  Sci 1536 16384 32;
  Sci 1792 16384 32;
  Sci 2048 8192 32;
  Sci 2304 16384 28;
  Sci 2688 16384 24;
  Sci 3200 16384 20;
  Sci 3584 32768 18;
  Sci 4096 8192 16;
  Sci 4736 24576 13;
  Sci 5376 16384 12;
  Sci 6144 24576 10;
  Sci 7168 57344 9;
  Sci 8192 8192 8;
  Sci 9472 40960 6;
  Sci 10240 32768 6;
  Sci 12288 24576 5;
  Sci 14336 57344 4;
  Sci 16384 16384 4;
  Sci 20480 40960 3;
  Sci 24576 24576 2;
  Sci 28672 57344 2;
  Sci 32768 32768 2;
  Sci 40960 40960 2;
  Sci 49152 49152 2;
  Sci 57344 57344 2;
  Sci 65536 65536 2;
  Sci 73728 73728 2;
  Sci 81920 81920 2;
  Sci 98304 98304 2;
  Sci 114688 114688 2;
  Sci 131072 131072 2;
  Sci 139264 139264 2;
  Sci 155648 155648 2;
  Sci 172032 172032 2;
  Sci 204800 204800 2;
  Sci 221184 221184 2;
  Sci 262144 262144 2].

(** tcmalloc/legacy_size_classes.cc:156-237 *)
Definition t_legacy_8_15 : list sci := [
  Sci 0 0 0;
  Sci 8 32768 32;
  Sci 16 32768 32;
  Sci 24 32768 32;
  Sci 32 32768 32;
  Sci 40 32768 32;
  Sci 48 32768 32;
  Sci 56 32768 32;
  Sci 64 32768 32;
  Sci 72 32768 32;
  Sci 80 32768 32;
  Sci 88 32768 32;
  Sci 96 32768 32;
  Sci 104 32768 32;
  Sci 112 32768 32;
  Sci 120 32768 32;
  Sci 128 32768 32;
  Sci 136 32768 32;
  Sci 144 32768 32;
  Sci 160 32768 32;
  Sci 176 32768 32;
  Sci 184 32768 32;
  Sci 200 32768 32;
  Sci 216 32768 32;
  Sci 232 32768 32;
  Sci 256 32768 32;
  Sci 280 32768 32;
  Sci 312 32768 32;
  Sci 368 32768 32;
  Sci 400 32768 32;
  Sci 448 32768 32;
  Sci 512 32768 32;
  Sci 576 32768 32;
  Sci 640 32768 32;
  Sci 768 32768 32;
  Sci 896 32768 32;
  Sci 1024 32768 32;
  Sci 1152 32768 32;
  Sci 1280 32768 32;
  Sci 1408 32768 32;
  Sci 1536 32768 32;
  Sci 1664 32768 32;
  Sci 1920 32768 32;
  Sci 2048 32768 32;
  Sci 2176 32768 30;
  Sci 2304 32768 28;
  Sci 2688 32768 24;
  Sci 3200 32768 20;
  Sci 3584 32768 18;
  Sci 4096 32768 16;
  Sci 4608 32768 14;
  Sci 5376 32768 12;
  Sci 5632 65536 11;
  Sci 6528 32768 10;
  Sci 7168 65536 9;
  Sci 8192 32768 8;
  Sci 9344 65536 7;
  Sci 10880 32768 6;
  Sci 13056 65536 5;
  Sci 14336 131072 4;
  Sci 16384 32768 4;
  Sci 19072 98304 3;
  Sci 21760 65536 3;
  Sci 24576 98304 2;
  Sci 28032 196608 2;
  Sci 32768 32768 2;
  Sci 38144 163840 2;
  Sci 49152 98304 2;
  Sci 54528 163840 2;
  Sci 65536 65536 2;
  Sci 81920 163840 2;
  Sci 98304 98304 2;
  Sci 114688 229376 2;
  Sci 131072 131072 2;
  Sci 163840 163840 2;
  Sci 196608 196608 2;
  Sci 229376 229376 2;
  Sci 262144 262144 2].

(** tcmalloc/legacy_size_classes.cc:247-339 *)
Definition t_legacy_8_18 : list sci := [
  Sci 0 0 0;
  Sci 8 262144 32;
  Sci 16 262144 32;
  Sci 24 262144 32;
  Sci 32 262144 32;
  Sci 40 262144 32;
  Sci 48 262144 32;
  Sci 56 262144 32;
  Sci 64 262144 32;
  Sci 72 262144 32;
  Sci 80 262144 32;
  Sci 88 262144 32;
  Sci 96 262144 32;
  Sci 104 262144 32;
  Sci 112 262144 32;
  Sci 120 262144 32;
  Sci 128 262144 32;
  Sci 136 262144 32;
  Sci 144 262144 32;
  Sci 160 262144 32;
  Sci 176 262144 32;
  Sci 192 262144 32;
  Sci 208 262144 32;
  Sci 224 262144 32;
  Sci 240 262144 32;
  Sci 256 262144 32;
  Sci 272 262144 32;
  Sci 304 262144 32;
  Sci 336 262144 32;
  Sci 360 262144 32;
  Sci 384 262144 32;
  Sci 408 262144 32;
  Sci 448 262144 32;
  Sci 472 262144 32;
  Sci 512 262144 32;
  Sci 576 262144 32;
  Sci 640 262144 32;
  Sci 704 262144 32;
  Sci 768 262144 32;
  Sci 896 262144 32;
  Sci 1024 262144 32;
  Sci 1152 262144 32;
  Sci 1280 262144 32;
  Sci 1408 262144 32;
  Sci 1536 262144 32;
  Sci 1664 262144 32;
  Sci 1920 262144 32;
  Sci 2048 262144 32;
  Sci 2304 262144 28;
  Sci 2560 262144 25;
  Sci 2816 262144 23;
  Sci 3200 262144 20;
  Sci 3840 262144 17;
  Sci 4096 262144 16;
  Sci 4224 262144 15;
  Sci 4608 262144 14;
  Sci 5120 262144 12;
  Sci 5632 262144 11;
  Sci 6144 262144 10;
  Sci 6656 262144 9;
  Sci 8192 262144 8;
  Sci 9344 262144 7;
  Sci 10368 262144 6;
  Sci 11392 262144 5;
  Sci 13056 262144 5;
  Sci 15360 262144 4;
  Sci 16384 262144 4;
  Sci 18688 262144 3;
  Sci 21760 262144 3;
  Sci 23808 262144 2;
  Sci 26112 262144 2;
  Sci 29056 262144 2;
  Sci 32768 262144 2;
  Sci 37376 262144 2;
  Sci 43648 262144 2;
  Sci 45568 524288 2;
  Sci 52352 262144 2;
  Sci 56064 524288 2;
  Sci 65536 262144 2;
  Sci 74880 524288 2;
  Sci 87296 262144 2;
  Sci 104832 524288 2;
  Sci 112256 786432 2;
  Sci 131072 262144 2;
  Sci 149760 786432 2;
  Sci 174720 524288 2;
  Sci 196608 786432 2;
  Sci 209664 1048576 2;
  Sci 262144 262144 2].

(** tcmalloc/legacy_size_classes.cc:349-398 *)
Definition t_legacy_8_12 : list sci := [
  Sci 0 0 0;
  Sci 8 4096 32;
  Sci 16 4096 32;
  Sci 24 4096 32;
  Sci 32 4096 32;
  Sci 40 4096 32;
  Sci 48 4096 32;
  Sci 56 4096 32;
  Sci 64 4096 32;
  Sci 72 4096 32;
  Sci 80 4096 32;
  Sci 88 4096 32;
  Sci 96 4096 32;
  Sci 112 4096 32;
  Sci 128 4096 32;
  Sci 136 4096 32;
  Sci 144 4096 32;
  Sci 160 4096 32;
  Sci 184 4096 32;
  Sci 200 4096 32;
  Sci 224 4096 32;
  Sci 240 4096 32;
  Sci 256 4096 32;
  Sci 272 4096 32;
  Sci 312 4096 32;
  Sci 368 4096 32;
  Sci 448 4096 32;
  Sci 512 4096 32;
  Sci 576 8192 32;
  Sci 640 8192 32;
  Sci 768 8192 32;
  Sci 896 8192 32;
  Sci 1024 8192 32;
  Sci 1152 12288 32;
  Sci 1280 12288 32;
  Sci 1536 12288 32;
  Sci 1792 16384 32;
  Sci 2048 16384 32;
  Sci 2304 16384 28;
  Sci 2688 16384 24;
  Sci 3328 20480 19;
  Sci 4096 16384 16;
  Sci 4736 20480 13;
  Sci 6144 12288 10;
  Sci 7168 28672 9;
  Sci 8192 16384 8].

(** tcmalloc/legacy_size_classes.cc:412-501 *)
Definition t_legacy_16_13 : list sci := [
  Sci 0 0 0;
  Sci 8 8192 32;
  Sci 16 8192 32;
  Sci 32 8192 32;
  Sci 48 8192 32;
  Sci 64 8192 32;
  Sci 80 8192 32;
  Sci 96 8192 32;
  Sci 112 8192 32;
  Sci 128 8192 32;
  Sci 144 8192 32;
  Sci 160 8192 32;
  Sci 176 8192 32;
  Sci 192 8192 32;
  Sci 208 8192 32;
  Sci 224 8192 32;
  Sci 240 8192 32;
  Sci 256 8192 32;
  Sci 272 8192 32;
  Sci 288 8192 32;
  Sci 304 8192 32;
  Sci 320 8192 32;
  Sci 352 8192 32;
  Sci 368 8192 32;
  Sci 384 8192 32;
  Sci 400 8192 32;
  Sci 416 8192 32;
  Sci 448 8192 32;
  Sci 480 8192 32;
  Sci 512 8192 32;
  Sci 576 8192 32;
  Sci 640 8192 32;
  Sci 704 8192 32;
  Sci 768 8192 32;
  Sci 896 8192 32;
  Sci 1024 8192 32;
  Sci 1152 16384 32;
  Sci 1280 16384 32;
  Sci 1408 16384 32;
  Sci 1536 16384 32;
  Sci 1792 16384 32;
  Sci 2048 8192 32;
  Sci 2304 16384 28;
  Sci 2688 16384 24;
  Sci 2816 24576 23;
  Sci 3200 16384 20;
  Sci 3456 24576 18;
  Sci 3584 32768 18;
  Sci 4096 8192 16;
  Sci 4736 24576 13;
  Sci 5376 16384 12;
  Sci 6144 24576 10;
  Sci 6528 32768 10;
  Sci 7168 57344 9;
  Sci 8192 8192 8;
  Sci 9472 40960 6;
  Sci 10240 32768 6;
  Sci 12288 24576 5;
  Sci 13568 40960 4;
  Sci 14336 57344 4;
  Sci 16384 16384 4;
  Sci 20480 40960 3;
  Sci 24576 24576 2;
  Sci 28672 57344 2;
  Sci 32768 32768 2;
  Sci 40960 40960 2;
  Sci 49152 49152 2;
  Sci 57344 57344 2;
  Sci 65536 65536 2;
  Sci 73728 73728 2;
  Sci 81920 81920 2;
  Sci 90112 90112 2;
  Sci 98304 98304 2;
  Sci 106496 106496 2;
  Sci 114688 114688 2;
  Sci 122880 122880 2;
  Sci 131072 131072 2;
  Sci 139264 139264 2;
  Sci 147456 147456 2;
  Sci 155648 155648 2;
  Sci 172032 172032 2;
  Sci 188416 188416 2;
  Sci 204800 204800 2;
  Sci 221184 221184 2;
  Sci 245760 245760 2;
  Sci 262144 262144 2].

(** tcmalloc/legacy_size_classes.cc:511-592 *)
Definition t_legacy_16_15 : list sci := [
  Sci 0 0 0;
  Sci 8 32768 32;
  Sci 16 32768 32;
  Sci 32 32768 32;
  Sci 48 32768 32;
  Sci 64 32768 32;
  Sci 80 32768 32;
  Sci 96 32768 32;
  Sci 112 32768 32;
  Sci 128 32768 32;
  Sci 144 32768 32;
  Sci 160 32768 32;
  Sci 176 32768 32;
  Sci 192 32768 32;
  Sci 208 32768 32;
  Sci 224 32768 32;
  Sci 240 32768 32;
  Sci 256 32768 32;
  Sci 272 32768 32;
  Sci 304 32768 32;
  Sci 320 32768 32;
  Sci 368 32768 32;
  Sci 384 32768 32;
  Sci 400 32768 32;
  Sci 448 32768 32;
  Sci 512 32768 32;
  Sci 576 32768 32;
  Sci 640 32768 32;
  Sci 704 32768 32;
  Sci 768 32768 32;
  Sci 832 32768 32;
  Sci 896 32768 32;
  Sci 1024 32768 32;
  Sci 1152 32768 32;
  Sci 1280 32768 32;
  Sci 1408 32768 32;
  Sci 1536 32768 32;
  Sci 1664 32768 32;
  Sci 1920 32768 32;
  Sci 2048 32768 32;
  Sci 2176 32768 30;
  Sci 2304 32768 28;
  Sci 2432 32768 26;
  Sci 2688 32768 24;
  Sci 2944 32768 22;
  Sci 3200 32768 20;
  Sci 3584 32768 18;
  Sci 4096 32768 16;
  Sci 4608 32768 14;
  Sci 4736 65536 13;
  Sci 5376 32768 12;
  Sci 5632 65536 11;
  Sci 6528 32768 10;
  Sci 7168 65536 9;
  Sci 8192 32768 8;
  Sci 9344 65536 7;
  Sci 10880 32768 6;
  Sci 13056 65536 5;
  Sci 14336 131072 4;
  Sci 16384 32768 4;
  Sci 19072 98304 3;
  Sci 21760 65536 3;
  Sci 24576 98304 2;
  Sci 28032 196608 2;
  Sci 32768 32768 2;
  Sci 38144 163840 2;
  Sci 40960 131072 2;
  Sci 49152 98304 2;
  Sci 54528 163840 2;
  Sci 65536 65536 2;
  Sci 81920 163840 2;
  Sci 98304 98304 2;
  Sci 114688 229376 2;
  Sci 131072 131072 2;
  Sci 163840 163840 2;
  Sci 196608 196608 2;
  Sci 229376 229376 2;
  Sci 262144 262144 2].

(** tcmalloc/legacy_size_classes.cc:602-694 *)
Definition t_legacy_16_18 : list sci := [
  Sci 0 0 0;
  Sci 8 262144 32;
  Sci 16 262144 32;
  Sci 32 262144 32;
  Sci 48 262144 32;
  Sci 64 262144 32;
  Sci 80 262144 32;
  Sci 96 262144 32;
  Sci 112 262144 32;
  Sci 128 262144 32;
  Sci 144 262144 32;
  Sci 160 262144 32;
  Sci 176 262144 32;
  Sci 192 262144 32;
  Sci 208 262144 32;
  Sci 224 262144 32;
  Sci 240 262144 32;
  Sci 256 262144 32;
  Sci 272 262144 32;
  Sci 288 262144 32;
  Sci 304 262144 32;
  Sci 320 262144 32;
  Sci 352 262144 32;
  Sci 384 262144 32;
  Sci 416 262144 32;
  Sci 448 262144 32;
  Sci 480 262144 32;
  Sci 512 262144 32;
  Sci 576 262144 32;
  Sci 640 262144 32;
  Sci 704 262144 32;
  Sci 768 262144 32;
  Sci 896 262144 32;
  Sci 1024 262144 32;
  Sci 1152 262144 32;
  Sci 1280 262144 32;
  Sci 1408 262144 32;
  Sci 1536 262144 32;
  Sci 1664 262144 32;
  Sci 1792 262144 32;
  Sci 1920 262144 32;
  Sci 2048 262144 32;
  Sci 2176 262144 30;
  Sci 2304 262144 28;
  Sci 2560 262144 25;
  Sci 2816 262144 23;
  Sci 3200 262144 20;
  Sci 3584 262144 18;
  Sci 3840 262144 17;
  Sci 4096 262144 16;
  Sci 4224 262144 15;
  Sci 4480 262144 14;
  Sci 4736 262144 13;
  Sci 5120 262144 12;
  Sci 5632 262144 11;
  Sci 6144 262144 10;
  Sci 6656 262144 9;
  Sci 7680 262144 8;
  Sci 8192 262144 8;
  Sci 9344 262144 7;
  Sci 10368 262144 6;
  Sci 11392 262144 5;
  Sci 13056 262144 5;
  Sci 15360 262144 4;
  Sci 16384 262144 4;
  Sci 17408 262144 3;
  Sci 18688 262144 3;
  Sci 20096 262144 3;
  Sci 21760 262144 3;
  Sci 23808 262144 2;
  Sci 26112 262144 2;
  Sci 29056 262144 2;
  Sci 32768 262144 2;
  Sci 37376 262144 2;
  Sci 43648 262144 2;
  Sci 45568 524288 2;
  Sci 52352 262144 2;
  Sci 56064 524288 2;
  Sci 65536 262144 2;
  Sci 74880 524288 2;
  Sci 87296 262144 2;
  Sci 104832 524288 2;
  Sci 112256 786432 2;
  Sci 131072 262144 2;
  Sci 149760 786432 2;
  Sci 174720 524288 2;
  Sci 196608 786432 2;
  Sci 209664 1048576 2;
  Sci 262144 262144 2].

(** tcmalloc/legacy_size_classes.cc:704-753 *)
Definition t_legacy_16_12 : list sci := [
  Sci 0 0 0;
  Sci 8 4096 32;
  Sci 16 4096 32;
  Sci 32 4096 32;
  Sci 48 4096 32;
  Sci 64 4096 32;
  Sci 80 4096 32;
  Sci 96 4096 32;
  Sci 112 4096 32;
  Sci 128 4096 32;
  Sci 144 4096 32;
  Sci 160 4096 32;
  Sci 176 4096 32;
  Sci 192 4096 32;
  Sci 208 4096 32;
  Sci 224 4096 32;
  Sci 240 4096 32;
  Sci 256 4096 32;
  Sci 272 4096 32;
  Sci 304 4096 32;
  Sci 336 4096 32;
  Sci 368 4096 32;
  Sci 400 4096 32;
  Sci 448 4096 32;
  Sci 512 4096 32;
  Sci 576 8192 32;
  Sci 640 8192 32;
  Sci 704 8192 32;
  Sci 768 8192 32;
  Sci 896 8192 32;
  Sci 1024 8192 32;
  Sci 1152 12288 32;
  Sci 1280 12288 32;
  Sci 1536 12288 32;
  Sci 1792 16384 32;
  Sci 2048 16384 32;
  Sci 2304 16384 28;
  Sci 2688 16384 24;
  Sci 3200 16384 20;
  Sci 3584 28672 18;
  Sci 4096 16384 16;
  Sci 4736 20480 13;
  Sci 5376 16384 12;
  Sci 6144 12288 10;
  Sci 7168 28672 9;
  Sci 8192 16384 8].

(** tcmalloc/experimental_pow2_size_class.cc:57-77 *)
Definition t_pow2_8_13 : list sci := [
  Sci 0 0 0;
  Sci 8 8192 32;
  Sci 16 8192 32;
  Sci 32 8192 32;
  Sci 64 8192 32;
  Sci 128 8192 32;
  Sci 256 8192 32;
  Sci 512 8192 32;
  Sci 1024 8192 32;
  Sci 2048 8192 32;
  Sci 4096 8192 16;
  Sci 8192 8192 8;
  Sci 16384 16384 4;
  Sci 32768 32768 2;
  Sci 65536 65536 2;
  Sci 131072 131072 2;
  Sci 262144 262144 2].

(** tcmalloc/experimental_pow2_size_class.cc:87-107 *)
Definition t_pow2_8_15 : list sci := [
  Sci 0 0 0;
  Sci 8 32768 32;
  Sci 16 32768 32;
  Sci 32 32768 32;
  Sci 64 32768 32;
  Sci 128 32768 32;
  Sci 256 32768 32;
  Sci 512 32768 32;
  Sci 1024 32768 32;
  Sci 2048 32768 32;
  Sci 4096 32768 16;
  Sci 8192 32768 8;
  Sci 16384 32768 4;
  Sci 32768 32768 2;
  Sci 65536 65536 2;
  Sci 131072 131072 2;
  Sci 262144 262144 2].

(** tcmalloc/experimental_pow2_size_class.cc:117-137 *)
Definition t_pow2_8_18 : list sci := [
  Sci 0 0 0;
  Sci 8 262144 32;
  Sci 16 262144 32;
  Sci 32 262144 32;
  Sci 64 262144 32;
  Sci 128 262144 32;
  Sci 256 262144 32;
  Sci 512 262144 32;
  Sci 1024 262144 32;
  Sci 2048 262144 32;
  Sci 4096 262144 16;
  Sci 8192 262144 8;
  Sci 16384 262144 4;
  Sci 32768 262144 2;
  Sci 65536 262144 2;
  Sci 131072 262144 2;
  Sci 262144 262144 2].

(** tcmalloc/experimental_pow2_size_class.cc:147-162 *)
Definition t_pow2_8_12 : list sci := [
  Sci 0 0 0;
  Sci 8 4096 32;
  Sci 16 4096 32;
  Sci 32 4096 32;
  Sci 64 4096 32;
  Sci 128 4096 32;
  Sci 256 4096 32;
  Sci 512 4096 32;
  Sci 1024 8192 32;
  Sci 2048 16384 32;
  Sci 4096 16384 16;
  Sci 8192 16384 8].

(** tcmalloc/experimental_pow2_size_class.cc:176-196 *)
Definition t_pow2_16_13 : list sci := [
  Sci 0 0 0;
  Sci 8 8192 32;
  Sci 16 8192 32;
  Sci 32 8192 32;
  Sci 64 8192 32;
  Sci 128 8192 32;
  Sci 256 8192 32;
  Sci 512 8192 32;
  Sci 1024 8192 32;
  Sci 2048 8192 32;
  Sci 4096 8192 16;
  Sci 8192 8192 8;
  Sci 16384 16384 4;
  Sci 32768 32768 2;
  Sci 65536 65536 2;
  Sci 131072 131072 2;
  Sci 262144 262144 2].

(** tcmalloc/experimental_pow2_size_class.cc:206-226 *)
Definition t_pow2_16_15 : list sci := [
  Sci 0 0 0;
  Sci 8 32768 32;
  Sci 16 32768 32;
  Sci 32 32768 32;
  Sci 64 32768 32;
  Sci 128 32768 32;
  Sci 256 32768 32;
  Sci 512 32768 32;
  Sci 1024 32768 32;
  Sci 2048 32768 32;
  Sci 4096 32768 16;
  Sci 8192 32768 8;
  Sci 16384 32768 4;
  Sci 32768 32768 2;
  Sci 65536 65536 2;
  Sci 131072 131072 2;
  Sci 262144 262144 2].

(** tcmalloc/experimental_pow2_size_class.cc:236-256 *)
Definition t_pow2_16_18 : list sci := [
  Sci 0 0 0;
  Sci 8 262144 32;
  Sci 16 262144 32;
  Sci 32 262144 32;
  Sci 64 262144 32;
  Sci 128 262144 32;
  Sci 256 262144 32;
  Sci 512 262144 32;
  Sci 1024 262144 32;
  Sci 2048 262144 32;
  Sci 4096 262144 16;
  Sci 8192 262144 8;
  Sci 16384 262144 4;
  Sci 32768 262144 2;
  Sci 65536 262144 2;
  Sci 131072 262144 2;
  Sci 262144 262144 2].

(** tcmalloc/experimental_pow2_size_class.cc:266-281 *)
Definition t_pow2_16_12 : list sci := [
  Sci 0 0 0;
  Sci 8 4096 32;
  Sci 16 4096 32;
  Sci 32 4096 32;
  Sci 64 4096 32;
  Sci 128 4096 32;
  Sci 256 4096 32;
  Sci 512 4096 32;
  Sci 1024 8192 32;
  Sci 2048 16384 32;
  Sci 4096 16384 16;
  Sci 8192 16384 8].

(** tcmalloc/reuse_relaxed_below_64_size_classes.cc:57-110 *)
Definition t_reuse_8_13 : list sci := [
  Sci 0 0 0;
  Sci 8 8192 32;
  Sci 16 8192 32;
  Sci 24 8192 32;
  Sci 32 8192 32;
  Sci 48 8192 32;
  Sci 64 8192 32;
  Sci 80 8192 32;
  Sci 96 8192 32;
  Sci 112 8192 32;
  Sci 128 8192 32;
  Sci 160 8192 32;
  Sci 184 8192 32;
  Sci 208 8192 32;
  Sci 256 8192 32;
  Sci 312 8192 32;
  Sci 368 8192 32;
  Sci 448 8192 32;
  Sci 512 8192 32;
  Sci 576 8192 32;
  Sci 704 8192 32;
  Sci 896 8192 32;
  Sci 1024 8192 32;
  Sci 1152 16384 32;
  Sci 1408 16384 32;
  Sci 1792 16384 32;
  Sci 2048 8192 32;
  Sci 2304 16384 28;
  Sci 2688 16384 24;
  Sci 3456 24576 18;
  Sci 4096 8192 16;
  Sci 4736 24576 13;
  Sci 6144 24576 10;
  Sci 8192 8192 8;
  Sci 9472 40960 6;
  Sci 12288 24576 5;
  Sci 16384 16384 4;
  Sci 20480 40960 3;
  Sci 28672 57344 2;
  Sci 32768 32768 2;
  Sci 40960 40960 2;
  Sci 49152 49152 2;
  Sci 65536 65536 2;
  Sci 73728 73728 2;
  Sci 81920 81920 2;
  Sci 98304 98304 2;
  Sci 131072 131072 2;
  Sci 155648 155648 2;
  Sci 204800 204800 2;
  Sci 262144 262144 2].

(** tcmalloc/reuse_relaxed_below_64_size_classes.cc:120-171 *)
Definition t_reuse_8_15 : list sci := [
  Sci 0 0 0;
  Sci 8 32768 32;
  Sci 16 32768 32;
  Sci 24 32768 32;
  Sci 32 32768 32;
  Sci 48 32768 32;
  Sci 64 32768 32;
  Sci 80 32768 32;
  Sci 88 32768 32;
  Sci 112 32768 32;
  Sci 128 32768 32;
  Sci 160 32768 32;
  Sci 200 32768 32;
  Sci 256 32768 32;
  Sci 312 32768 32;
  Sci 376 32768 32;
  Sci 448 32768 32;
  Sci 512 32768 32;
  Sci 640 32768 32;
  Sci 832 32768 32;
  Sci 1024 32768 32;
  Sci 1152 32768 32;
  Sci 1280 32768 32;
  Sci 1536 32768 32;
  Sci 2048 32768 32;
  Sci 2304 32768 28;
  Sci 2688 32768 24;
  Sci 3200 32768 20;
  Sci 4096 32768 16;
  Sci 4608 32768 14;
  Sci 5376 32768 12;
  Sci 6528 32768 10;
  Sci 8192 32768 8;
  Sci 9344 65536 7;
  Sci 13056 65536 5;
  Sci 16384 32768 4;
  Sci 21760 65536 3;
  Sci 28032 196608 2;
  Sci 32768 32768 2;
  Sci 40960 131072 2;
  Sci 54528 163840 2;
  Sci 65536 65536 2;
  Sci 81920 163840 2;
  Sci 114688 229376 2;
  Sci 131072 131072 2;
  Sci 163840 163840 2;
  Sci 229376 229376 2;
  Sci 262144 262144 2].

(** tcmalloc/reuse_relaxed_below_64_size_classes.cc:181-235 *)
Definition t_reuse_8_18 : list sci := [
  Sci 0 0 0;
  Sci 8 262144 32;
  Sci 16 262144 32;
  Sci 24 262144 32;
  Sci 32 262144 32;
  Sci 48 262144 32;
  Sci 64 262144 32;
  Sci 80 262144 32;
  Sci 96 262144 32;
  Sci 112 262144 32;
  Sci 128 262144 32;
  Sci 152 262144 32;
  Sci 192 262144 32;
  Sci 256 262144 32;
  Sci 304 262144 32;
  Sci 384 262144 32;
  Sci 448 262144 32;
  Sci 512 262144 32;
  Sci 640 262144 32;
  Sci 768 262144 32;
  Sci 832 262144 32;
  Sci 1024 262144 32;
  Sci 1280 262144 32;
  Sci 1664 262144 32;
  Sci 2048 262144 32;
  Sci 2560 262144 25;
  Sci 3200 262144 20;
  Sci 4096 262144 16;
  Sci 4480 262144 14;
  Sci 5120 262144 12;
  Sci 6528 262144 10;
  Sci 8192 262144 8;
  Sci 9600 262144 6;
  Sci 11392 262144 5;
  Sci 13056 262144 5;
  Sci 16384 262144 4;
  Sci 21760 262144 3;
  Sci 26112 262144 2;
  Sci 29056 262144 2;
  Sci 32768 262144 2;
  Sci 37376 262144 2;
  Sci 43648 262144 2;
  Sci 52352 262144 2;
  Sci 65536 262144 2;
  Sci 74880 524288 2;
  Sci 87296 262144 2;
  Sci 104832 524288 2;
  Sci 131072 262144 2;
  Sci 174720 524288 2;
  Sci 209664 1048576 2;
  Sci 262144 262144 2].

(** tcmalloc/reuse_relaxed_below_64_size_classes.cc:245-274 *)
Definition t_reuse_8_12 : list sci := [
  Sci 0 0 0;
  Sci 8 4096 32;
  Sci 16 4096 32;
  Sci 24 4096 32;
  Sci 32 4096 32;
  Sci 48 4096 32;
  Sci 64 4096 32;
  Sci 80 4096 32;
  Sci 96 4096 32;
  Sci 128 4096 32;
  Sci 160 4096 32;
  Sci 224 4096 32;
  Sci 256 4096 32;
  Sci 288 4096 32;
  Sci 368 4096 32;
  Sci 512 4096 32;
  Sci 576 8192 32;
  Sci 768 8192 32;
  Sci 1024 8192 32;
  Sci 1536 12288 32;
  Sci 2048 16384 32;
  Sci 2688 16384 24;
  Sci 4096 16384 16;
  Sci 4736 20480 13;
  Sci 6144 12288 10;
  Sci 8192 16384 8].

(** tcmalloc/reuse_relaxed_below_64_size_classes.cc:288-340 *)
Definition t_reuse_16_13 : list sci := [
  Sci 0 0 0;
  Sci 8 8192 32;
  Sci 16 8192 32;
  Sci 32 8192 32;
  Sci 48 8192 32;
  Sci 64 8192 32;
  Sci 80 8192 32;
  Sci 96 8192 32;
  Sci 112 8192 32;
  Sci 128 8192 32;
  Sci 160 8192 32;
  Sci 176 8192 32;
  Sci 208 8192 32;
  Sci 256 8192 32;
  Sci 304 8192 32;
  Sci 368 8192 32;
  Sci 448 8192 32;
  Sci 512 8192 32;
  Sci 576 8192 32;
  Sci 704 8192 32;
  Sci 896 8192 32;
  Sci 1024 8192 32;
  Sci 1152 16384 32;
  Sci 1408 16384 32;
  Sci 1792 16384 32;
  Sci 2048 8192 32;
  Sci 2304 16384 28;
  Sci 2688 16384 24;
  Sci 3456 24576 18;
  Sci 4096 8192 16;
  Sci 4736 24576 13;
  Sci 6144 24576 10;
  Sci 8192 8192 8;
  Sci 9472 40960 6;
  Sci 12288 24576 5;
  Sci 16384 16384 4;
  Sci 20480 40960 3;
  Sci 28672 57344 2;
  Sci 32768 32768 2;
  Sci 40960 40960 2;
  Sci 49152 49152 2;
  Sci 65536 65536 2;
  Sci 73728 73728 2;
  Sci 81920 81920 2;
  Sci 98304 98304 2;
  Sci 131072 131072 2;
  Sci 155648 155648 2;
  Sci 204800 204800 2;
  Sci 262144 262144 2].

(** tcmalloc/reuse_relaxed_below_64_size_classes.cc:350-401 *)
Definition t_reuse_16_15 : list sci := [
  Sci 0 0 0;
  Sci 8 32768 32;
  Sci 16 32768 32;
  Sci 32 32768 32;
  Sci 48 32768 32;
  Sci 64 32768 32;
  Sci 80 32768 32;
  Sci 96 32768 32;
  Sci 112 32768 32;
  Sci 128 32768 32;
  Sci 160 32768 32;
  Sci 192 32768 32;
  Sci 256 32768 32;
  Sci 320 32768 32;
  Sci 384 32768 32;
  Sci 448 32768 32;
  Sci 512 32768 32;
  Sci 640 32768 32;
  Sci 832 32768 32;
  Sci 1024 32768 32;
  Sci 1152 32768 32;
  Sci 1280 32768 32;
  Sci 1536 32768 32;
  Sci 2048 32768 32;
  Sci 2304 32768 28;
  Sci 2688 32768 24;
  Sci 3200 32768 20;
  Sci 4096 32768 16;
  Sci 4608 32768 14;
  Sci 5376 32768 12;
  Sci 6528 32768 10;
  Sci 8192 32768 8;
  Sci 9344 65536 7;
  Sci 13056 65536 5;
  Sci 16384 32768 4;
  Sci 21760 65536 3;
  Sci 28032 196608 2;
  Sci 32768 32768 2;
  Sci 38144 163840 2;
  Sci 49152 98304 2;
  Sci 57344 229376 2;
  Sci 65536 65536 2;
  Sci 81920 163840 2;
  Sci 114688 229376 2;
  Sci 131072 131072 2;
  Sci 163840 163840 2;
  Sci 229376 229376 2;
  Sci 262144 262144 2].

(** tcmalloc/reuse_relaxed_below_64_size_classes.cc:411-465 *)
Definition t_reuse_16_18 : list sci := [
  Sci 0 0 0;
  Sci 8 262144 32;
  Sci 16 262144 32;
  Sci 32 262144 32;
  Sci 48 262144 32;
  Sci 64 262144 32;
  Sci 80 262144 32;
  Sci 96 262144 32;
  Sci 112 262144 32;
  Sci 128 262144 32;
  Sci 160 262144 32;
  Sci 192 262144 32;
  Sci 256 262144 32;
  Sci 304 262144 32;
  Sci 384 262144 32;
  Sci 448 262144 32;
  Sci 512 262144 32;
  Sci 640 262144 32;
  Sci 768 262144 32;
  Sci 832 262144 32;
  Sci 1024 262144 32;
  Sci 1280 262144 32;
  Sci 1664 262144 32;
  Sci 2048 262144 32;
  Sci 2560 262144 25;
  Sci 3200 262144 20;
  Sci 4096 262144 16;
  Sci 4480 262144 14;
  Sci 5120 262144 12;
  Sci 6528 262144 10;
  Sci 8192 262144 8;
  Sci 9600 262144 6;
  Sci 11392 262144 5;
  Sci 13056 262144 5;
  Sci 16384 262144 4;
  Sci 21760 262144 3;
  Sci 26112 262144 2;
  Sci 29056 262144 2;
  Sci 32768 262144 2;
  Sci 37376 262144 2;
  Sci 43648 262144 2;
  Sci 52352 262144 2;
  Sci 65536 262144 2;
  Sci 74880 524288 2;
  Sci 87296 262144 2;
  Sci 104832 524288 2;
  Sci 131072 262144 2;
  Sci 149760 786432 2;
  Sci 174720 524288 2;
  Sci 209664 1048576 2;
  Sci 262144 262144 2].

(** tcmalloc/reuse_relaxed_below_64_size_classes.cc:475-504 *)
Definition t_reuse_16_12 : list sci := [
  Sci 0 0 0;
  Sci 8 4096 32;
  Sci 16 4096 32;
  Sci 32 4096 32;
  Sci 48 4096 32;
  Sci 64 4096 32;
  Sci 80 4096 32;
  Sci 96 4096 32;
  Sci 128 4096 32;
  Sci 144 4096 32;
  Sci 160 4096 32;
  Sci 224 4096 32;
  Sci 256 4096 32;
  Sci 288 4096 32;
  Sci 368 4096 32;
  Sci 512 4096 32;
  Sci 576 8192 32;
  Sci 768 8192 32;
  Sci 1024 8192 32;
  Sci 1536 12288 32;
  Sci 2048 16384 32;
  Sci 2688 16384 24;
  Sci 4096 16384 16;
  Sci 4736 20480 13;
  Sci 6144 12288 10;
  Sci 8192 16384 8].

Definition tables_8_12 : list (list sci) := [t_def_8_12; t_legacy_8_12; t_pow2_8_12; t_reuse_8_12].
Definition tables_8_13 : list (list sci) := [t_def_8_13; t_legacy_8_13; t_pow2_8_13; t_reuse_8_13].
Definition tables_8_15 : list (list sci) := [t_def_8_15; t_legacy_8_15; t_pow2_8_15; t_reuse_8_15].
Definition tables_8_18 : list (list sci) := [t_def_8_18; t_legacy_8_18; t_pow2_8_18; t_reuse_8_18].
Definition tables_16_12 : list (list sci) := [t_def_16_12; t_legacy_16_12; t_pow2_16_12; t_reuse_16_12].
Definition tables_16_13 : list (list sci) := [t_def_16_13; t_legacy_16_13; t_pow2_16_13; t_reuse_16_13].
Definition tables_16_15 : list (list sci) := [t_def_16_15; t_legacy_16_15; t_pow2_16_15; t_reuse_16_15].
Definition tables_16_18 : list (list sci) := [t_def_16_18; t_legacy_16_18; t_pow2_16_18; t_reuse_16_18].
