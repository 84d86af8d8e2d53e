*.vo
*.vok
*.vos
*.glob
.*.aux
rocq/.lia.cache
rocq/Makefile
rocq/Makefile.conf
rocq/.Makefile.d
__pycache__/
*.cache
