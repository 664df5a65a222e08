rocq/.lia.cache
rocq/.nia.cache
.nra.cache
.lia.cache
rocq/Makefile
rocq/Makefile.conf
rocq/.Makefile.d
*.vo
*.vos
*.vok
*.glob
*.aux
.*.aux
.lia.cache
__pycache__/
.nia.cache
