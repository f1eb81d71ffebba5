#!/bin/sh
# regenerate rocq/_CoqProject from the files present
cd "$(dirname "$0")/../rocq" || exit 1
{ echo "-Q theories Verif"; ls theories/*.v; } > _CoqProject
