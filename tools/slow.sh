#!/bin/bash
# time each sentence of a theory file without a warm arithmetic cache
f=$1; d=$(mktemp -d); cd $d
timeout ${2:-900} coqc -time -Q /verif/rocq/theories Verif /verif/rocq/theories/$f.v 2>&1 | grep -v " 0\.[0-9]* secs" | grep -v "Closed under"
rm -rf $d
