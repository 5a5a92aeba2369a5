#!/bin/sh
# Build everything: ./mk.sh
cd "$(dirname "$0")" && coq_makefile -f _CoqProject -o Makefile && timeout 2400 make -j4
