#!/bin/sh
# List every theory file in rocq/_CoqProject (the flag line is kept).
cd "$(dirname "$0")/../rocq" && { echo "-Q theories Verif"; ls theories/*.v; } > _CoqProject
